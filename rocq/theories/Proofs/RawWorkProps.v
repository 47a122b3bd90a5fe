(** Rendering pictures that are stored raw. *)
From Coq Require Import Lia.
From Verif.Model Require Import RenderSteps.
From Verif.Spec Require Import Bytes ImageSpec BlendSpec RenderSpec Made Convert Slices Work RawWork.
From Verif.Proofs Require Import ParseLib ImageFacts RenderFacts RenderProps LoaderProps MadeProps WorkProps LoadStepsProps ImageWorkProps RenderStepsProps.

Lemma fold_rounds {E A B} (f : A -> B -> kout E A) l : (forall a b, fst (f a b) = 0) ->
  forall a, 0 <= fst (k_fold f l a) <= zlen l.
Proof.
  intros H. induction l as [|b l IH]; intros a; [cbn; lia|]. rewrite zlen_cons.
  change (k_fold f (b :: l) a) with (round (kbind (f a b) (k_fold f l))). unfold round, kbind. cbn [fst].
  pose proof (zlen_nonneg l). pose proof (H a b) as Z0. destruct (snd (f a b)) as [a'|e|p]; cbn [fst]; [specialize (IH a')|..]; lia.
Qed.
Lemma zlen_numbered {A} (l : list A) : zlen (enumerate l) = zlen l.
Proof. rewrite zlen_enum. unfold zlen. rewrite combine_length, map_length, seq_length. lia. Qed.

(** The data bound the rounds, and the target if decoding succeeds. *)
Definition fed (m : kout (load_image_error * bytes) bytes) (most n : Z) (target : bytes) : Prop :=
  0 <= fst m <= most /\ forall r, snd m = Ok r -> zlen target <= 4 * n.
Lemma fed_then {A} (o : out _ A) k most n target : 0 <= most -> (forall a, o = Ok a -> fed (k a) most n target) -> fed (kbind (plain o) k) most n target.
Proof.
  intros N K. unfold fed, kbind, plain in *. cbn [fst snd]. destruct o as [a|e|p]; cbn [fst snd].
  - rewrite Z.add_0_l. exact (K a eq_refl).
  - split; [lia|discriminate].
  - split; [lia|discriminate].
Qed.
Lemma gray_fed c source target m : zlen source * 2 < 2 ^ usize_bits c -> zlen target = m * 4 ->
  fed (k_grayscale_to_rgba c source target) (zlen source / 2) (zlen source / 2) target.
Proof.
  intros Hs Hm. pose proof (zlen_nonneg source) as Ns. assert (N2 : 0 <= zlen source / 2) by (apply Z.div_pos; lia).
  unfold k_grayscale_to_rgba. rewrite usizec_id by lia. apply fed_then; [exact N2|]. intros n [= <-].
  destruct (Z.eqb_spec (zlen target) (zlen source * 2)) as [Et|N]; cbn [negb]; [|split; [cbn [plain fst]; lia|discriminate]].
  assert (Em : zlen source / 2 = m) by (replace (zlen source) with (m * 2) by lia; apply Z.div_mul; lia). rewrite Em.
  split; [|lia]. match goal with |- _ <= fst (k_fold ?f ?l ?t) <= _ => pose proof (fold_rounds f l) as F end.
  specialize (F ltac:(intros t [i ch]; unfold kbind, plain; cbn [fst snd]; destruct (get_index ch 0); [|reflexivity..];
    cbn [fst snd]; destruct (get_index ch 1); reflexivity) target).
  rewrite zlen_numbered in F. pose proof (chunks2_len source). unfold zlen, bytes in *. lia.
Qed.
Lemma indexed_fed c source pal target : cfg_ok c -> fed (k_indexed_to_rgba c source pal target) (zlen source) (zlen source) target.
Proof.
  intros Hc. pose proof (zlen_nonneg source) as Ns. unfold k_indexed_to_rgba. apply fed_then; [exact Ns|]. intros n U.
  apply usizec_le in U; [|assumption|lia].
  destruct (Z.eqb_spec (zlen target) n) as [Et|N]; cbn [negb]; [|split; [cbn; lia|discriminate]].
  split; [|lia]. match goal with |- _ <= fst (k_fold ?f ?l ?t) <= _ => pose proof (fold_rounds f l) as F end.
  specialize (F ltac:(intros t [i px]; unfold kbind, plain; cbn [fst snd]; destruct (get_index pal px); reflexivity) target).
  rewrite zlen_numbered in F. exact F.
Qed.
(** Pixels that raw data have, and rounds of decoding them *)
Definition pixels_in (d : color_depth) (len : Z) : Z :=
  match d with Rgba => len / 4 | Grayscale => len / 2 | Indexed => len | DUnknown _ => 0 end.
Definition conversions (d : color_depth) (len : Z) : Z :=
  match d with Grayscale => len / 2 | Indexed => len | _ => 0 end.
Lemma data_rounds_is d len : data_rounds d len = conversions d len + pixels_in d len.
Proof. unfold data_rounds, conversions, pixels_in. destruct d; lia. Qed.
Lemma pixels_in_nonneg d len : 0 <= len -> 0 <= pixels_in d len /\ 0 <= conversions d len.
Proof.
  intros N. assert (0 <= len / 4) by (apply Z.div_pos; lia). assert (0 <= len / 2) by (apply Z.div_pos; lia).
  unfold pixels_in, conversions. destruct d; lia.
Qed.
Lemma decode_fed c inflate f im target m : cfg_ok c -> im_compressed im = false ->
  zlen (im_data im) * 2 < 2 ^ usize_bits c -> zlen target = m * 4 ->
  fed (k_decode_image c inflate f im target) (conversions (h_color_depth (f_header f)) (zlen (im_data im)))
    (pixels_in (h_color_depth (f_header f)) (zlen (im_data im))) target.
Proof.
  intros Hc R Hs Hm. pose proof (zlen_nonneg (im_data im)) as N. unfold k_decode_image, conversions, pixels_in. rewrite R.
  destruct (h_color_depth (f_header f)).
  all: try (now apply (gray_fed c _ _ m)); try (apply fed_then; [exact N|]; intros pal _; now apply indexed_fed).
  - split; [|intros r X; discriminate X || idtac]; destruct (Z.eqb_spec (zlen target) (zlen (im_data im))) as [Q|]; cbn [plain fst snd] in *; try lia; try discriminate.
    all: rewrite <- Q, Hm, Z.div_mul; lia.
  - split; [cbn [plain fst]; lia|discriminate].
Qed.

Lemma raw_image c inflate s j im target : cfg_ok c -> nth_error (af_images s) (Z.to_nat j) = Some im -> 0 <= j ->
  im_compressed im = false -> 0 <= im_width im * im_height im -> rgba_size im < 2 ^ usize_bits c ->
  zlen (im_data im) * 2 < 2 ^ usize_bits c ->
  0 <= fst (k_load_image c inflate s j target) <= conversions (h_color_depth (f_header (af_file s))) (zlen (im_data im)) /\
  forall r, snd (k_load_image c inflate s j target) = Ok r ->
    im_width im * im_height im <= pixels_in (h_color_depth (f_header (af_file s))) (zlen (im_data im)).
Proof.
  intros Hc E J R N S Hs. unfold rgba_size in S. pose proof (zlen_nonneg (im_data im)) as Nd.
  destruct (pixels_in_nonneg (h_color_depth (f_header (af_file s))) _ Nd) as [Np Nc]. unfold k_load_image, get_index. rewrite E.
  assert (0 <=? j = true) as -> by lia. unfold kbind, plain. cbn [fst snd].
  rewrite usizec_id by lia. cbn [fst snd]. rewrite usizec_id by lia. cbn [fst snd].
  destruct (Z.ltb_spec (zlen target) (im_width im * im_height im * 4)); cbn [fst snd]; [split; [lia|discriminate]|].
  set (t := firstn _ target). assert (Lt : zlen t = im_width im * im_height im * 4) by (unfold t, zlen in *; rewrite firstn_length; lia).
  destruct (decode_fed c inflate (af_file s) im t _ Hc R Hs Lt) as [D1 D2]. rewrite ?Z.add_0_l. split; [exact D1|]. intros r X.
  destruct (snd (k_decode_image c inflate (af_file s) im t)) as [y|[e y]|p]; cbn [with_tail] in X; try discriminate.
  specialize (D2 y eq_refl). lia.
Qed.

Lemma raw_cel c inflate s sel sf target cel : cfg_ok c -> typed c s -> cels_fit_images s -> In sf (af_frames s) -> In cel (sf_cels sf) ->
  room cel < 2 ^ usize_bits c -> (drawn s sel cel <> None -> uncompressed_cel s cel) ->
  spends False (k_render_cel c inflate s sel target cel)
    (match drawn s sel cel with Some _ => snd (fc_size cel) + data_rounds (h_color_depth (f_header (af_file s))) (data_bytes s cel) | None => 0 end) 0.
Proof.
  intros Hc T CF Isf Ic Hr. pose proof T as (_ & _ & _ & TI & _ & F). rewrite Forall_forall in F. specialize (F _ Isf).
  rewrite Forall_forall in F. destruct (F _ Ic) as (_ & _ & [A _] & [B _] & _ & [J _]).
  pose proof (area_nonneg cel A B) as N. unfold room in Hr.
  unfold k_render_cel, drawn. destruct (nth_error (af_layers s) _) as [l|]; [|intros _; apply spends_plain].
  rewrite chosen_is.
  assert (G : layer_type_eqb (ly_layer_type l) LGroup = match ly_layer_type l with LGroup => true | _ => false end)
    by (destruct (ly_layer_type l); reflexivity). rewrite G.
  assert (K : uncompressed_cel s cel -> spends False
    (let% n := plain (usizec c (fst (fc_size cel) * snd (fc_size cel))) in
      let% n := plain (usizec c (n * 4)) in
      let% cel_target := plain (vec_zeroed c n) in
      let% cel_target := k_unwrap (k_load_image c inflate s (fc_image_index cel) cel_target) in
      let% f := plain (lift (blend_mode_to_blend_fn c (ly_blend_mode l))) in
      k_render_pixels c (h_width (f_header (af_file s))) (h_height (f_header (af_file s)))
                    cel cel_target f (ly_opacity l) target) (snd (fc_size cel) + data_rounds (h_color_depth (f_header (af_file s))) (data_bytes s cel)) 0).
  { intros (im & Im & R). unfold data_bytes. rewrite Im. pose proof (zlen_nonneg (im_data im)) as Nd.
    pose proof (CF _ _ _ Isf Ic Im) as Sz. assert (Ar : area cel = im_width im * im_height im) by (unfold area; now rewrite Sz).
    assert (Rs : rgba_size im < 2 ^ usize_bits c) by (unfold rgba_size; unfold area in Ar; lia).
    set (d := h_color_depth (f_header (af_file s))) in *. destruct (pixels_in_nonneg d _ Nd) as [Np Nc]. rewrite data_rounds_is.
    assert (Hd : zlen (im_data im) * 2 < 2 ^ usize_bits c).
    { rewrite Forall_forall in TI. destruct (TI im (nth_error_In _ _ Im)) as (_ & _ & _ & Ad). unfold addressable in Ad.
      destruct (usize_pos c Hc) as [_ ->]. lia. }
    do 3 (apply spends_then; [lia|intros ? _]).
    destruct (raw_image c inflate s _ im a1 Hc Im J R ltac:(lia) Rs Hd) as [L1 L2]. fold d in L1, L2.
    replace (snd (fc_size cel) + (conversions d (zlen (im_data im)) + pixels_in d (zlen (im_data im))))
      with (conversions d (zlen (im_data im)) + (snd (fc_size cel) + pixels_in d (zlen (im_data im)))) by lia.
    apply (spends_bind False _ _ _ 0 _ 0); [lia|split; [exact L1|intros []]|].
    intros ct X. apply spends_then; [lia|]. intros f _.
    assert (area cel <= pixels_in d (zlen (im_data im))).
    { unfold k_unwrap in X. cbn [snd] in X. destruct (snd (k_load_image _ _ _ _ _)) as [y|e|p]; try discriminate.
      specialize (L2 y eq_refl). lia. }
    destruct (pixels_spends False c (h_width (f_header (af_file s))) (h_height (f_header (af_file s))) cel ct f (ly_opacity l) target A B) as [P1 _].
    split; [lia|intros []]. }
  destruct (ly_layer_type l); cbn [orb]; try (intros _; apply spends_plain);
    destruct (chosen _ _ _); cbn [negb]; try (intros _; apply spends_plain); intros D; apply K, D; discriminate.
Qed.

Theorem raw_steps : forall c inflate i s, usize_bits c = 64 -> is_bytes i -> addressable c i -> load c i = Ok s ->
  forall k sf target sel, nth_error (af_frames s) k = Some sf ->
  let cels := drawn_cels s sel (sf_cels sf) in
  Forall (uncompressed_cel s) cels ->
  fst (k_render_frame c inflate s (Z.of_nat k) target sel) <=
    zlen (sf_cels sf) + zsum (fun cel => snd (fc_size cel) + data_rounds (h_color_depth (f_header (af_file s))) (data_bytes s cel)) cels.
Proof.
  intros c inflate i s Hb Hi Ha L k sf target sel E. cbn zeta. intros R. assert (Hc : cfg_ok c) by now right.
  destruct (loaded_typed c i s Hc Hi Ha L) as [T _]. pose proof (nth_error_In _ _ E) as Isf.
  assert (CF : cels_fit_images s).
  { intros f cel im If Ic Im. destruct (cel_valid c i s L f cel If Ic) as (_ & im' & Im' & ->).
    rewrite Im in Im'. now injection Im' as <-. }
  pose proof T as (_ & _ & _ & _ & _ & F). rewrite Forall_forall in F. specialize (F _ Isf). rewrite Forall_forall in F.
  assert (W : forall cel, In cel (sf_cels sf) ->
    0 <= match drawn s sel cel with Some _ => snd (fc_size cel) + data_rounds (h_color_depth (f_header (af_file s))) (data_bytes s cel) | None => 0 end).
  { intros cel Ic. destruct (F _ Ic) as (_ & _ & _ & [B _] & _). destruct (drawn s sel cel); [|lia].
    assert (Nb : 0 <= data_bytes s cel) by (unfold data_bytes; destruct (nth_error (af_images s) _) as [im|]; [apply zlen_nonneg|lia]).
    rewrite data_rounds_is. destruct (pixels_in_nonneg (h_color_depth (f_header (af_file s))) _ Nb). lia. }
  enough (S : spends False (k_render_frame c inflate s (Z.of_nat k) target sel)
    (zlen (sf_cels sf) + zsum (fun cel => snd (fc_size cel) + data_rounds (h_color_depth (f_header (af_file s))) (data_bytes s cel)) (drawn_cels s sel (sf_cels sf)))
    (zsum (fun _ => 1 + 0) (sf_cels sf))) by apply S.
  rewrite <- zsum_drawn.
  match goal with |- spends _ _ ?a _ => assert (N : 0 <= a) by (apply zsum_nonneg; intros b X; specialize (W b X); lia) end.
  unfold k_render_frame. do 2 (apply spends_then; [exact N|intros ? _]).
  match goal with |- spends _ (if ?b then _ else _) _ _ => destruct b end; [now apply spends_err|].
  apply spends_then; [exact N|]. intros fr G.
  assert (fr = sf) as ->.
  { unfold get_index in G. rewrite Nat2Z.id, E in G. destruct (0 <=? Z.of_nat k); congruence. }
  apply (spends_fold False _ _ (fun _ => 0)); [exact W|]. intros t cel Ic. apply (raw_cel c inflate s sel sf t cel Hc T CF Isf Ic).
  - destruct (F _ Ic) as (_ & _ & A & B & _). unfold room. rewrite Hb. nia.
  - intros D. rewrite Forall_forall in R. apply R. unfold drawn_cels. apply filter_In. split; [exact Ic|]. now destruct (drawn s sel cel).
Qed.

Lemma data_in_file c i s cel : cfg_ok c -> is_bytes i -> addressable c i -> load c i = Ok s -> data_bytes s cel <= zlen i.
Proof.
  intros Hc Hi Ha L. unfold data_bytes. destruct (nth_error (af_images s) _) as [im|] eqn:Im; [|apply zlen_nonneg].
  assert (F : infix (im_data im) i).
  { apply (sprite_slices_infix c i s Hc Hi Ha L). unfold sprite_slices. rewrite !in_app_iff. right. right. right.
    apply in_map. now apply nth_error_In in Im. }
  destruct F as (a & b & ->). unfold zlen. rewrite !app_length. lia.
Qed.
Theorem raw_file_steps : forall c inflate i s, usize_bits c = 64 -> is_bytes i -> addressable c i -> load c i = Ok s ->
  forall k sf target sel, nth_error (af_frames s) k = Some sf ->
  let cels := drawn_cels s sel (sf_cels sf) in
  Forall (uncompressed_cel s) cels ->
  fst (k_render_frame c inflate s (Z.of_nat k) target sel) <= zlen (sf_cels sf) + zlen cels * (65535 + 2 * zlen i).
Proof.
  intros c inflate i s Hb Hi Ha L k sf target sel E. cbn zeta. intros R. assert (Hc : cfg_ok c) by now right.
  pose proof (raw_steps c inflate i s Hb Hi Ha L k sf target sel E R) as S. cbn zeta in S.
  destruct (loaded_typed c i s Hc Hi Ha L) as [(_ & _ & _ & _ & _ & F) _]. rewrite Forall_forall in F.
  specialize (F _ (nth_error_In _ _ E)). rewrite Forall_forall in F.
  etransitivity; [exact S|]. apply Z.add_le_mono_l.
  assert (G : forall l, (forall cel, In cel l -> In cel (sf_cels sf)) ->
    zsum (fun cel => snd (fc_size cel) + data_rounds (h_color_depth (f_header (af_file s))) (data_bytes s cel)) l <= zlen l * (65535 + 2 * zlen i)).
  { induction l as [|cel l IH]; intros H; [cbn; lia|]. rewrite zlen_cons. cbn [zsum fold_right].
    match goal with |- _ + ?x <= _ => change x with (zsum (fun cel => snd (fc_size cel) + data_rounds (h_color_depth (f_header (af_file s))) (data_bytes s cel)) l) end.
    specialize (IH (fun x X => H x (or_intror X))). destruct (F _ (H cel (or_introl eq_refl))) as (_ & _ & _ & [_ B] & _).
    change (2 ^ 16) with 65536 in B. pose proof (data_in_file c i s cel Hc Hi Ha L) as D.
    assert (Nb : 0 <= data_bytes s cel) by (unfold data_bytes; destruct (nth_error (af_images s) _) as [im|]; [apply zlen_nonneg|lia]).
    assert (data_rounds (h_color_depth (f_header (af_file s))) (data_bytes s cel) <= 2 * data_bytes s cel).
    { assert (data_bytes s cel / 4 <= data_bytes s cel) by (apply Z.div_le_upper_bound; lia).
      assert (data_bytes s cel / 2 <= data_bytes s cel) by (apply Z.div_le_upper_bound; lia).
      unfold data_rounds. destruct (h_color_depth _); lia. }
    lia. }
  apply G. intros cel X. unfold drawn_cels in X. now apply filter_In in X.
Qed.
