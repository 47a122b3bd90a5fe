(** [render_frame] on loaded files: the statements of Properties/Render.v. *)
From Verif.Model Require Import Loader.
From Verif.Spec Require Import Bytes Format FileSpec LoaderSpec Slices ImageSpec BlendSpec RenderSpec.
From Verif.Proofs Require Import ParseLib RawFacts SlicesFacts FileFacts PaletteFacts FileProps LoaderFacts LoaderProps FileFinal
  BinaryFinal ImageFacts ImageProps BlendProps RenderFacts.
From Verif.Tests Require Import Configs Build.

(** ** Colours are bytes *)
Definition color_ok (x : color) : Prop := is_byte (red x) /\ is_byte (green x) /\ is_byte (blue x) /\ is_byte (alpha x).

Definition chunk_colors_ok (x : chunk) : Prop :=
  match x with
  | ChPalette p => Forall (fun e => color_ok (pe_color e)) (pc_entries p)
  | ChPalette0004 p | ChPalette0011 p => Forall (fun q => Forall (fun x => color_ok (opaque x)) (pk_colors q)) (op_packets p)
  | _ => True
  end.

Lemma payload_colors me x d : payload_l me x d -> chunk_colors_ok x.
Proof.
  assert (Ho : forall p d, prefix_l old_palette_l p d -> Forall (fun q => Forall (fun x => color_ok (opaque x)) (pk_colors q)) (op_packets p)).
  { intros p d' (e & g & (body & _ & H & _) & _). revert H. apply Forall_seq.
    intros q e' (n & b & _ & _ & _ & H & _). revert H. apply Forall_seq.
    intros y e'' [H1 ->]. unfold is_bytes in H1. rewrite !Forall_cons_iff in H1. unfold color_ok, opaque, is_byte in *. cbn. lia. }
  destruct x; cbn; try (intros; exact I); try (apply Ho).
  intros (e & g & (ig & body & _ & _ & _ & _ & H & _) & _). revert H. apply Forall_seq.
  intros y e' (fl & e1 & e2 & _ & [H1 ->] & _). unfold is_bytes in H1. rewrite !Forall_cons_iff in H1. unfold color_ok, is_byte in *. lia.
Qed.

Lemma place_colors cols : Forall (fun x => color_ok (opaque x)) cols -> forall k, Forall (fun w => color_ok (snd w)) (place k cols).
Proof. induction 1; intro k; cbn; constructor; auto. Qed.
Lemma old_writes_colors ps : Forall (fun q => Forall (fun x => color_ok (opaque x)) (pk_colors q)) ps ->
  forall k ws, old_writes k ps = Some ws -> Forall (fun w => color_ok (snd w)) ws.
Proof.
  induction 1 as [|q ps Hq H IH]; intros k ws; cbn [old_writes]; [intros [= <-]; constructor|].
  destruct (_ <? _); [discriminate|]. destruct (old_writes _ ps) eqn:E; [|discriminate]. intros [= <-].
  apply Forall_app. split; [now apply place_colors|eapply IH, E].
Qed.
Lemma old_writes_all_colors chs : Forall (fun ch => Forall (fun q => Forall (fun x => color_ok (opaque x)) (pk_colors q)) (op_packets ch)) chs ->
  forall ws, old_writes_all chs = Some ws -> Forall (fun w => color_ok (snd w)) ws.
Proof.
  induction 1 as [|ch chs Hq H IH]; intros ws; cbn [old_writes_all]; [intros [= <-]; constructor|].
  destruct (old_writes 0 _) eqn:E; [|discriminate]. destruct (old_writes_all chs) eqn:E'; [|discriminate]. intros [= <-].
  apply Forall_app. split; [eapply old_writes_colors; eassumption|now apply IH].
Qed.
Lemma number_colors es : Forall (fun e => color_ok (pe_color e)) es -> forall k, Forall (fun w => color_ok (snd w)) (number k es).
Proof. induction 1; intro k; cbn; constructor; auto. Qed.

Lemma black_ok : color_ok black.
Proof. unfold color_ok, is_byte, black. cbn. lia. Qed.

Lemma spec_writes_colors fs ws : Forall chunk_colors_ok (all_chunks fs) -> spec_writes fs = inl ws ->
  Forall (fun w => color_ok (snd w)) ws.
Proof.
  intros H. unfold spec_writes.
  assert (H0 : Forall (fun p => Forall (fun e => color_ok (pe_color e)) (pc_entries p)) (new_palettes fs)).
  { unfold new_palettes. eapply Forall_flat_map_of; [exact H|]. intros x Hx. destruct x; cbn in *; auto. }
  assert (H1 : Forall (fun p => Forall (fun q => Forall (fun x => color_ok (opaque x)) (pk_colors q)) (op_packets p)) (palettes_0004 fs)).
  { unfold palettes_0004. eapply Forall_flat_map_of; [exact H|]. intros x Hx. destruct x; cbn in *; auto. }
  assert (H2 : Forall (fun p => Forall (fun q => Forall (fun x => color_ok (opaque x)) (pk_colors q)) (op_packets p)) (palettes_0011 fs)).
  { unfold palettes_0011. eapply Forall_flat_map_of; [exact H|]. intros x Hx. destruct x; cbn in *; auto. }
  destruct (new_palettes fs) as [|p0 ps0]; [destruct (palettes_0004 fs) as [|p1 ps1]; [destruct (palettes_0011 fs) as [|p2 ps2]|]|].
  - discriminate.
  - destruct (old_writes_all (p2 :: ps2)) eqn:E; [|discriminate]. intros [= <-]. eapply old_writes_all_colors; [exact H2|exact E].
  - destruct (old_writes_all (p1 :: ps1)) eqn:E; [|discriminate]. intros [= <-]. eapply old_writes_all_colors; [exact H1|exact E].
  - intros [= <-]. change (Forall (fun w => color_ok (snd w)) (flat_map new_writes (p0 :: ps0))).
    eapply Forall_flat_map_of; [exact H0|]. intros p Hp. unfold new_writes. apply Forall_forall. intros w Hw.
    apply filter_In in Hw as [Hw _]. pose proof (number_colors _ Hp (pc_first p)) as G. rewrite Forall_forall in G. now apply G.
Qed.

Lemma spec_color_ok t ws k : Forall (fun w => color_ok (snd w)) ws -> color_ok (spec_color t ws k).
Proof.
  intro H. assert (G : color_ok (assigned ws k)).
  { unfold assigned. destruct (find _ (rev ws)) as [[j x]|] eqn:E; [|exact black_ok].
    apply find_some in E as [E _]. apply in_rev in E. rewrite Forall_forall in H. exact (H _ E). }
  unfold spec_color. destruct (_ =? _); [|exact G]. destruct G as (G1 & G2 & G3 & _). unfold color_ok. cbn.
  repeat split; try apply G1; try apply G2; try apply G3; lia.
Qed.

Section Loaded.
Context (c : cfg) (i : bytes) (s : ase_file).
Context (Hc : cfg_ok c) (Hi : is_bytes i) (Ha : addressable c i) (Hload : load c i = Ok s).

Lemma palette_colors p : f_palette (af_file s) = Some p -> Forall color_ok p.
Proof.
  intro H. pose proof (loaded_parse c i s Hload) as Hp.
  destruct (parse_file_ok c i _ Hc Hi Ha Hp) as (raw & pal & _ & Hr & Hpal & Ef & _).
  rewrite Ef in H. cbn [file_of f_palette] in H. subst pal. unfold palette_of in Hpal.
  destruct (h_color_depth (rw_header raw)); try discriminate. destruct (spec_palette _ _) as [q|] eqn:E; [|discriminate].
  injection Hpal as ->. apply spec_palette_nth in E as (ws & Hw & _ & Hl & Hk).
  assert (Hcol : Forall (fun w => color_ok (snd w)) ws).
  { eapply spec_writes_colors; [|exact Hw]. unfold all_chunks.
    destruct (raw_payloads c i raw Hc Hi Ha Hr) as (_ & _ & HP).
    eapply Forall_flat_map_of; [exact HP|]. intros fr [_ HF]. eapply Forall_impl; [|exact HF].
    intros x [d Hd]. eapply payload_colors, Hd. }
  apply Forall_forall. intros x Hx. apply In_nth_error in Hx as [k Hx].
  assert (k < 256)%nat. { assert (k < length p)%nat by (apply nth_error_Some; congruence). unfold zlen in Hl. lia. }
  rewrite Hk in Hx by assumption. injection Hx as <-. now apply spec_color_ok.
Qed.

Lemma layer_opacity l : In l (af_layers s) -> is_byte (ly_opacity l).
Proof.
  intro Hl. pose proof (loaded_parse c i s Hload) as Hp.
  destruct (build_sprite_ok _ _ (loaded_build c i s Hload)) as (_ & El & _).
  rewrite El in Hl. unfold build_layers in Hl. apply in_map_iff in Hl as (l0 & <- & Hl). apply filter_In in Hl as [Hl _].
  destruct (parse_file_ok c i _ Hc Hi Ha Hp) as (raw & pal & _ & Hr & _ & Ef & _). rewrite Ef in Hl. cbn [file_of f_layers] in Hl.
  apply in_flat_map in Hl as (fr & Hfr & Hl). apply suffixes_flat_in in Hl as (x & r & a & Hcs & Hx).
  destruct x; try contradiction. destruct Hx as [<-|[]].
  destruct (raw_payloads c i raw Hc Hi Ha Hr) as (_ & _ & HP). rewrite Forall_forall in HP.
  destruct (HP fr Hfr) as [_ HP']. rewrite Hcs in HP'. apply Forall_app in HP' as [_ HP'].
  inversion HP' as [|? ? [d Hd] _]; subst. cbn [payload_l] in Hd.
  destruct Hd as (e & g & (fl & ty & dw & dh & bm & ig & en & et & _ & _ & _ & _ & _ & _ & Ho & _) & _).
  cbn. unfold is_byte. unfold u8, uint in Ho. cbn in Ho. lia.
Qed.

Lemma canvas_facts : 0 <= canvas_width s < 65536 /\ 0 <= canvas_height s < 65536.
Proof.
  pose proof (loaded_parse c i s Hload) as Hp.
  destruct (parse_file_ok c i _ Hc Hi Ha Hp) as (raw & pal & _ & Hr & _ & Ef & _). unfold canvas_width, canvas_height. rewrite Ef.
  cbn [file_of f_header]. destruct (raw_payloads c i raw Hc Hi Ha Hr) as (_ & (e & Hh) & _).
  destruct Hh as (d & i1 & i2 & _ & _ & Hw & Hht & _). unfold u16, uint in *. cbn in *. lia.
Qed.

Lemma wide_fits : usize_bits c = 64 -> sprite_fits c s.
Proof.
  intro H64. destruct canvas_facts as [H1 H2]. split.
  - unfold canvas_size. rewrite H64. change (2 ^ 64) with 18446744073709551616. nia.
  - apply Forall_forall. intros im Him. destruct (image_facts c i s Hc Hi Ha Hload im Him) as (H3 & H4 & _ & H5).
    unfold rgba_size. rewrite H64. change (2 ^ 64) with 18446744073709551616. change (2 ^ (64 - 1)) with 9223372036854775808.
    change (2 ^ 32) with 4294967296 in H5. nia.
Qed.

Context (inflate : inflater) (Hinf : inflate_ok inflate) (Hfit : sprite_fits c s).

Lemma gray_bytes : forall n l, (length l <= n)%nat -> is_bytes l -> is_bytes (gray_rgba l).
Proof.
  induction n as [|n IH]; intros l Hl H.
  - destruct l; [constructor|cbn in Hl; lia].
  - destruct l as [|v [|a l]]; [constructor..|]. inversion H as [|? ? Hv H']; subst. inversion H' as [|? ? Hva H'']; subst.
    cbn [gray_rgba]. repeat (constructor; [assumption|]). apply IH; [cbn in Hl; lia|exact H''].
Qed.
Lemma stored_bytes im old pxs : In im (af_images s) -> is_bytes old -> stored inflate im old pxs -> is_bytes pxs.
Proof.
  intros Him Hold. destruct (image_facts c i s Hc Hi Ha Hload im Him) as (_ & _ & Hd & _).
  unfold stored. destruct (im_compressed im); [|now intros ->].
  intros (w & E & ->). eapply inflated_bytes; eassumption.
Qed.
Lemma cel_image_bytes cel image : cel_image inflate s cel image -> is_bytes image.
Proof.
  intros (im & Hj & Hd). pose proof (nth_error_In _ _ Hj) as Him. unfold decoded in Hd.
  destruct (h_color_depth (f_header (af_file s))).
  - destruct Hd as [Hs _]. eapply stored_bytes; [exact Him| |exact Hs]. apply bytes_zero.
  - destruct Hd as (pxs & Hs & _ & ->). eapply gray_bytes; [apply le_n|]. eapply stored_bytes; [exact Him| |exact Hs]. apply bytes_zero.
  - destruct Hd as (pxs & pal & Hs & Hp & _ & ->). apply palette_colors in Hp. unfold index_rgba.
    clear Hs. induction pxs as [|k pxs IH]; [constructor|]. cbn [flat_map]. apply Forall_app. split; [|exact IH].
    assert (G : color_ok (nth (Z.to_nat k) pal black)).
    { destruct (nth_in_or_default (Z.to_nat k) pal black) as [Hin| ->]; [|exact black_ok]. rewrite Forall_forall in Hp. now apply Hp. }
    destruct G as (G1 & G2 & G3 & G4). repeat (constructor; [assumption|]). constructor.
  - contradiction.
Qed.
Lemma cel_image_unique cel a b : cel_image inflate s cel a -> cel_image inflate s cel b -> a = b.
Proof.
  intros (im & Hj & Hd) (im' & Hj' & Hd'). assert (im' = im) as -> by congruence. eapply decoded_unique; eassumption.
Qed.

(** A cel of the sprite. *)
Definition cel_ok (cel : frame_cel) : Prop :=
  0 <= fc_image_index cel /\ exists im, nth_error (af_images s) (Z.to_nat (fc_image_index cel)) = Some im /\
    fc_size cel = (im_width im, im_height im).

Lemma cel_sizes cel : cel_ok cel ->
  0 <= fst (fc_size cel) /\ 0 <= snd (fc_size cel) /\ fst (fc_size cel) * snd (fc_size cel) * 4 < 2 ^ usize_bits c.
Proof.
  intros (H0 & im & Hj & E). rewrite E. cbn [fst snd]. pose proof (nth_error_In _ _ Hj) as Him.
  destruct (image_facts c i s Hc Hi Ha Hload im Him) as (H1 & H2 & _). destruct Hfit as [_ HF]. rewrite Forall_forall in HF.
  destruct (HF im Him) as [HF1 _]. unfold rgba_size in HF1. destruct (usize_pos c Hc) as [_ HU]. lia.
Qed.

(** Loading the image of a cel into a fresh buffer. *)
Lemma cel_loaded cel : cel_ok cel ->
  let r := load_image c inflate s (fc_image_index cel) (repeat 0 (Z.to_nat (fst (fc_size cel) * snd (fc_size cel) * 4))) in
  match r with
  | Ok image => cel_image inflate s cel image /\ zlen image = fst (fc_size cel) * snd (fc_size cel) * 4
  | Err _ => forall image, ~ cel_image inflate s cel image
  | Panic q => q = PCopyLen /\ (forall image, ~ cel_image inflate s cel image) /\
      h_color_depth (f_header (af_file s)) = Rgba /\
      exists im, nth_error (af_images s) (Z.to_nat (fc_image_index cel)) = Some im /\
        im_compressed im = false /\ zlen (im_data im) <> rgba_size im
  end.
Proof.
  intros (H0 & im & Hj & E). rewrite E. cbn [fst snd]. pose proof (nth_error_In _ _ Hj) as Him.
  change (im_width im * im_height im * 4) with (rgba_size im).
  destruct (image_facts c i s Hc Hi Ha Hload im Him) as (H1 & H2 & _). destruct Hfit as [_ HF]. rewrite Forall_forall in HF.
  destruct (HF im Him) as [HF1 HF2]. destruct (usize_pos c Hc) as [_ HU].
  assert (Hs0 : 0 <= rgba_size im) by (unfold rgba_size; nia).
  assert (Hsz : sizes_fit c im) by (split; [lia|exact HF2]).
  set (t := repeat 0 (Z.to_nat (rgba_size im))).
  assert (Ht : zlen t = rgba_size im) by (unfold t; rewrite zlen_repeat; lia).
  assert (Hta : addressable c t) by (unfold addressable; lia).
  pose proof (load_image_ok c i s Hc Hi Ha Hload inflate Hinf _ im t Hj Hsz Hta) as HO.
  pose proof (load_image_panic c i s Hc Hi Ha Hload inflate Hinf _ im t Hj Hsz Hta) as HP.
  rewrite Z2Nat.id in HO, HP by exact H0.
  assert (Hf : firstn (Z.to_nat (rgba_size im)) t = t) by (apply firstn_all2; unfold zlen in Ht; lia).
  assert (Hk : skipn (Z.to_nat (rgba_size im)) t = []) by (apply skipn_all2; unfold zlen in Ht; lia).
  rewrite Hf, Hk in HO.
  assert (Hno : (forall r, load_image c inflate s (fc_image_index cel) t <> Ok r) -> forall image, ~ cel_image inflate s cel image).
  { intros Hn image (im' & Hj' & Hd). assert (im' = im) as -> by congruence. apply (Hn image). apply HO. split; [lia|].
    exists image. split; [exact Hd|]. now rewrite app_nil_r. }
  cbv zeta. destruct (load_image c inflate s (fc_image_index cel) t) as [image|e|q].
  - destruct (proj1 (HO image) eq_refl) as (_ & rgba & Hd & ->). rewrite app_nil_r. split; [exists im; auto|].
    eapply (decoded_length c inflate (af_file s) im t); [eassumption|eassumption|exact (palette_size c i s Hc Hi Ha Hload)|eassumption].
  - apply Hno. discriminate.
  - destruct (proj1 (HP q) eq_refl) as (-> & _ & Hd & Hz & Hn). split; [reflexivity|]. split; [apply Hno; discriminate|].
    split; [exact Hd|]. exists im. auto.
Qed.
End Loaded.

(** ** Blend modes *)
Lemma mode_cases m : known_mode m \/ exists w, m = BUnknown w.
Proof. unfold known_mode. destruct m; cbn; eauto. Qed.
Lemma unknown_not_known w : ~ known_mode (BUnknown w).
Proof. now intros [[]|[]]. Qed.

Lemma mode_fn c m f back front o : is_px back -> is_px front -> is_byte o -> blend_mode_to_blend_fn c m = Ok f ->
  match f back front o with
  | Ok p => is_px p
  | Err e => False
  | Panic q => q = PDebugAssert /\ debug c = true /\ hsl m
  end.
Proof.
  intros Hb Hf Ho E. destruct (mode_cases m) as [[Hm|Hm]|[w ->]]; [| |discriminate].
  - destruct (no_panic m back front o Hm Hb Hf Ho) as (r & Hr & H). destruct (H c) as (f' & E' & F).
    assert (f' = f) as -> by congruence. now rewrite F.
  - destruct (hsl_outcomes m back front o Hm Hb Hf Ho) as (r & Hr & HR & HD).
    destruct (debug c) eqn:D.
    + destruct (HD c D) as (f' & E' & F). assert (f' = f) as -> by congruence. destruct F as [-> | ->]; auto.
    + destruct (HR c D) as (f' & E' & F). assert (f' = f) as -> by congruence. now rewrite F.
Qed.
Lemma known_fn c m : known_mode m -> exists f, blend_mode_to_blend_fn c m = Ok f.
Proof. intros [H|H]; destruct m; cbn in H; try contradiction; eexists; reflexivity. Qed.

(** ** Whole frames *)
Lemma chosen_is sel k l : is_selected sel k l = chosen sel k l.
Proof.
  destruct sel as [| |mask]; try reflexivity. cbn. generalize (Z.to_nat k). clear. induction mask as [|b m IH]; intros [|n]; cbn; auto.
Qed.

Section Frame.
Context (c : cfg) (i : bytes) (s : ase_file).
Context (Hc : cfg_ok c) (Hi : is_bytes i) (Ha : addressable c i) (Hload : load c i = Ok s).
Context (inflate : inflater) (Hinf : inflate_ok inflate) (Hfit : sprite_fits c s) (sel : layer_selection).

Lemma render_cel_eq cel t : cel_ok s cel ->
  render_cel c inflate s sel t cel =
  match drawn s sel cel with
  | None => Ok t
  | Some l =>
      let* image := unwrap (load_image c inflate s (fc_image_index cel)
                              (repeat 0 (Z.to_nat (fst (fc_size cel) * snd (fc_size cel) * 4)))) in
      let* f := lift (blend_mode_to_blend_fn c (ly_blend_mode l)) in
      render_pixels c (canvas_width s) (canvas_height s) cel image f (ly_opacity l) t
  end.
Proof.
  intro Hok. unfold render_cel, drawn.
  destruct (nth_error (af_layers s) (Z.to_nat (fc_layer_index cel))) as [l|]; [|reflexivity].
  rewrite chosen_is. destruct (chosen sel (fc_layer_index cel) l); cbn [negb]; rewrite ?orb_true_r, ?orb_false_r.
  2:{ destruct (ly_layer_type l); reflexivity. }
  assert (E : forall r : buf_out, r = (let* n := usizec c (fst (fc_size cel) * snd (fc_size cel)) in
      let* n := usizec c (n * 4) in
      let* cel_target := vec_zeroed c n in
      let* cel_target := unwrap (load_image c inflate s (fc_image_index cel) cel_target) in
      let* f := lift (blend_mode_to_blend_fn c (ly_blend_mode l)) in
      render_pixels c (h_width (f_header (af_file s))) (h_height (f_header (af_file s)))
                    cel cel_target f (ly_opacity l) t) -> r = (let* image := unwrap (load_image c inflate s (fc_image_index cel)
                              (repeat 0 (Z.to_nat (fst (fc_size cel) * snd (fc_size cel) * 4)))) in
      let* f := lift (blend_mode_to_blend_fn c (ly_blend_mode l)) in
      render_pixels c (canvas_width s) (canvas_height s) cel image f (ly_opacity l) t)).
  { intros r ->. destruct (cel_sizes c i s Hc Hi Ha Hload Hfit cel Hok) as (H1 & H2 & H3).
    destruct Hok as (_ & im & Hj & Es). destruct Hfit as [_ HF]. rewrite Forall_forall in HF.
    destruct (HF im (nth_error_In _ _ Hj)) as [HF1 _]. unfold rgba_size in HF1. rewrite Es in *. cbn [fst snd] in *.
    rewrite usizec_id by nia. cbn [bind]. rewrite usizec_id by nia. cbn [bind].
    unfold vec_zeroed. replace (_ <? _) with true by lia. reflexivity. }
  destruct (ly_layer_type l); try reflexivity; now apply E.
Qed.

(** Why a cel cannot be drawn. *)
Definition obstacle (cel : frame_cel) (l : layer) (q : panic) : Prop :=
  (q = PCopyLen /\ h_color_depth (f_header (af_file s)) = Rgba /\
     exists im, nth_error (af_images s) (Z.to_nat (fc_image_index cel)) = Some im /\
       im_compressed im = false /\ zlen (im_data im) <> rgba_size im) \/
  (q = PUnwrap /\ forall image, ~ cel_image inflate s cel image) \/
  (q = PExplicit /\ ~ known_mode (ly_blend_mode l)) \/
  (q = PDebugAssert /\ debug c = true /\ hsl (ly_blend_mode l)).

Definition drawable (cel : frame_cel) (l : layer) : Prop :=
  (exists image, cel_image inflate s cel image) /\ known_mode (ly_blend_mode l).

Lemma drawn_layer cel l : drawn s sel cel = Some l -> In l (af_layers s).
Proof.
  unfold drawn. destruct (nth_error (af_layers s) _) as [l0|] eqn:E; [|discriminate].
  intro H. assert (l0 = l) as -> by (destruct (ly_layer_type l0); try discriminate; destruct (chosen _ _ _); congruence).
  eapply nth_error_In, E.
Qed.

Lemma render_cel_outcome cel t : cel_ok s cel -> is_bytes t -> canvas_size s <= zlen t ->
  match render_cel c inflate s sel t cel with
  | Ok t' => zlen t' = zlen t /\ is_bytes t' /\
      (forall n, canvas_size s <= Z.of_nat n -> nth_error t' n = nth_error t n) /\
      (forall l, drawn s sel cel = Some l -> drawable cel l) /\
      (drawn s sel cel = None -> t' = t) /\
      forall x y, 0 <= x < canvas_width s -> 0 <= y < canvas_height s ->
        exists back p, pixel (canvas_width s) t x y = Some back /\ pixel (canvas_width s) t' x y = Some p /\
          forall cels r, composed c inflate s sel x y cels p r -> composed c inflate s sel x y (cel :: cels) back r
  | Err _ => False
  | Panic q => exists l, drawn s sel cel = Some l /\ obstacle cel l q
  end.
Proof.
  intros Hok Hb Ht. rewrite render_cel_eq by exact Hok. destruct (canvas_facts c i s Hc Hi Ha Hload) as [HW HH].
  destruct (drawn s sel cel) as [l|] eqn:Ed.
  2:{ split; [reflexivity|]. split; [exact Hb|]. split; [reflexivity|]. split; [discriminate|]. split; [reflexivity|].
      intros x y Hx Hy. exists (at_px t (Z.to_nat (y * canvas_width s + x))), (at_px t (Z.to_nat (y * canvas_width s + x))).
      rewrite (pixel_at_px (canvas_width s) (canvas_height s)) by (assumption || exact Ht). split; [reflexivity|]. split; [reflexivity|].
      intros cels r H. apply composed_skip; [now left|exact H]. }
  pose proof (cel_loaded c i s Hc Hi Ha Hload inflate Hinf Hfit cel Hok) as HL. cbv zeta in HL.
  destruct (load_image c inflate s _ _) as [image|e|q]; cbn [unwrap bind].
  - destruct HL as [Himg Hlen].
    destruct (mode_cases (ly_blend_mode l)) as [Hm|[w Hm]].
    2:{ rewrite Hm, unknown_mode. cbn [lift bind]. exists l. split; [reflexivity|]. right. right. left. split; [reflexivity|].
        rewrite Hm. apply unknown_not_known. }
    destruct (known_fn c _ Hm) as [f Ef]. rewrite Ef. cbn [lift bind].
    destruct (cel_sizes c i s Hc Hi Ha Hload Hfit cel Hok) as (H1 & H2 & H3). destruct Hfit as [HC _]. unfold canvas_size in *.
    pose proof (layer_opacity c i s Hc Hi Ha Hload l (drawn_layer cel l Ed)) as Hop.
    pose proof (cel_image_bytes c i s Hc Hi Ha Hload inflate Hinf cel image Himg) as Hib.
    assert (Hf : forall b f' p, is_px b -> is_px f' -> f b f' (ly_opacity l) = Ok p -> is_px p).
    { intros b f' p Hpb Hpf E. pose proof (mode_fn c _ f b f' (ly_opacity l) Hpb Hpf Hop Ef) as G. now rewrite E in G. }
    pose proof (render_pixels_outcome c (canvas_width s) (canvas_height s) cel image f (ly_opacity l) HW HH HC H1 H2 H3 Hlen t Ht) as HR.
    assert (HB : forall t', render_pixels c (canvas_width s) (canvas_height s) cel image f (ly_opacity l) t = Ok t' -> is_bytes t')
      by (intros t' Et; eapply (render_pixels_bytes c (canvas_width s) (canvas_height s) cel image f (ly_opacity l)) with (t := t); eassumption).
    destruct (render_pixels _ _ _ _ _ _ _ t) as [t'|e|q].
    + destruct HR as (L & N & V). split; [exact L|]. split; [now apply HB|]. split; [exact N|].
      split; [intros l' [= <-]; split; [eauto|exact Hm]|]. split; [discriminate|].
      intros x y Hx Hy. destruct (V x y Hx Hy) as (back & p & E1 & E2 & E3). exists back, p. split; [exact E1|]. split; [exact E2|].
      intros cels r Hr. destruct (covers cel x y) eqn:Ec.
      * destruct E3 as (front & E4 & E5). eapply composed_draw; eassumption.
      * subst p. apply composed_skip; [now right|exact Hr].
    + exact HR.
    + destruct HR as (x & y & back & front & Hx & Hy & Hcv & E1 & E2 & E3). exists l. split; [reflexivity|]. right. right. right.
      assert (Pb : is_px back).
      { rewrite (pixel_at_px (canvas_width s) (canvas_height s)) in E1 by assumption. injection E1 as <-. now apply at_px_byte. }
      assert (Pf : is_px front).
      { unfold covers in Hcv. destruct (fc_origin cel) as [ox oy], (fc_size cel) as [w h]. cbn [fst snd] in *.
        rewrite (pixel_at_px w h) in E2 by lia. injection E2 as <-. now apply at_px_byte. }
      pose proof (mode_fn c _ f back front (ly_opacity l) Pb Pf Hop Ef) as G. rewrite E3 in G. exact G.
  - exists l. split; [reflexivity|]. right. left. auto.
  - destruct HL as (-> & Hn & Hd & Hex). exists l. split; [reflexivity|]. left. auto.
Qed.

Lemma cels_outcome cels : Forall (cel_ok s) cels -> forall t, is_bytes t -> canvas_size s <= zlen t ->
  match fold_out (render_cel c inflate s sel) cels t with
  | Ok t' => zlen t' = zlen t /\ is_bytes t' /\
      (forall n, canvas_size s <= Z.of_nat n -> nth_error t' n = nth_error t n) /\
      (forall cel l, In cel cels -> drawn s sel cel = Some l -> drawable cel l) /\
      ((forall cel, In cel cels -> drawn s sel cel = None) -> t' = t) /\
      forall x y, 0 <= x < canvas_width s -> 0 <= y < canvas_height s ->
        exists back p, pixel (canvas_width s) t x y = Some back /\ pixel (canvas_width s) t' x y = Some p /\
          composed c inflate s sel x y cels back p
  | Err _ => False
  | Panic q => exists cel l, In cel cels /\ drawn s sel cel = Some l /\ obstacle cel l q
  end.
Proof.
  induction 1 as [|cel cels Hok HF IH]; intros t Hb Ht; cbn [fold_out].
  { split; [reflexivity|]. split; [exact Hb|]. split; [reflexivity|]. split; [intros ? ? []|]. split; [reflexivity|].
    intros x y Hx Hy. eexists _, _. rewrite (pixel_at_px (canvas_width s) (canvas_height s)) by (assumption || exact Ht).
    split; [reflexivity|]. split; [reflexivity|]. constructor. }
  pose proof (render_cel_outcome cel t Hok Hb Ht) as HC. destruct (render_cel c inflate s sel t cel) as [t1|e|q]; cbn [bind].
  - destruct HC as (L & B & N & D & U & V). specialize (IH t1 B ltac:(lia)).
    destruct (fold_out _ cels t1) as [t'|e|q].
    + destruct IH as (L' & B' & N' & D' & U' & V'). split; [lia|]. split; [exact B'|]. split.
      { intros n Hn. rewrite N', N by exact Hn. reflexivity. }
      split; [intros x l [<-|Hx]; [apply D|now apply D']|]. split.
      { intro Hd. rewrite U'; [apply U|]; intros; apply Hd; [now left|now right]. }
      intros x y Hx Hy. destruct (V x y Hx Hy) as (back & p & E1 & E2 & E3). destruct (V' x y Hx Hy) as (b' & p' & E1' & E2' & E3').
      assert (b' = p) as -> by congruence. exists back, p'. auto.
    + exact IH.
    + destruct IH as (x & l & Hx & G). exists x, l. split; [now right|exact G].
  - exact HC.
  - destruct HC as (l & G). exists cel, l. split; [now left|exact G].
Qed.

Lemma frame_cels_ok k sf : nth_error (api_frames s) k = Some sf -> Forall (cel_ok s) (sf_cels sf).
Proof.
  intro Hk. destruct (cels_shown c i s k sf Hc Hi Ha Hload Hk) as (fr & _ & _ & H). apply Forall_forall. intros cel Hcel.
  destruct (H cel Hcel) as [H0 H1]. split; [lia|exact H1].
Qed.

Lemma render_frame_eq k sf t : nth_error (api_frames s) k = Some sf ->
  render_frame c inflate s (Z.of_nat k) t sel =
  if zlen t <? canvas_size s then Err (TargetBufferTooSmall, t) else fold_out (render_cel c inflate s sel) (sf_cels sf) t.
Proof.
  intro Hk. destruct (canvas_facts c i s Hc Hi Ha Hload) as [HW HH]. destruct Hfit as [HC _].
  unfold render_frame. unfold canvas_size, canvas_width, canvas_height in *.
  rewrite usizec_id by nia. cbn [bind]. rewrite usizec_id by nia. cbn [bind].
  destruct (_ <? _); [reflexivity|]. rewrite (get_index_ok _ (Z.of_nat k) sf) by (rewrite ?Nat2Z.id; (assumption || lia)). reflexivity.
Qed.
End Frame.

(** ** C35 *)
Lemma render_composes c i s : cfg_ok c -> is_bytes i -> addressable c i -> load c i = Ok s ->
  forall inflate, inflate_ok inflate -> sprite_fits c s ->
  forall sel k sf target r, nth_error (api_frames s) k = Some sf -> is_bytes target ->
  render_frame c inflate s (Z.of_nat k) target sel = Ok r ->
  forall x y, 0 <= x < canvas_width s -> 0 <= y < canvas_height s ->
  exists back p, pixel (canvas_width s) target x y = Some back /\ pixel (canvas_width s) r x y = Some p /\
    composed c inflate s sel x y (sf_cels sf) back p.
Proof.
  intros Hc Hi Ha Hl inflate Hinf Hfit sel k sf t r Hk Hb. rewrite (render_frame_eq c i s Hc Hi Ha Hl inflate Hfit sel k sf t Hk).
  destruct (Z.ltb_spec (zlen t) (canvas_size s)) as [H|H]; [discriminate|]. intro E.
  pose proof (cels_outcome c i s Hc Hi Ha Hl inflate Hinf Hfit sel _ (frame_cels_ok c i s Hc Hi Ha Hl k sf Hk) t Hb H) as G.
  rewrite E in G. apply G.
Qed.

Lemma composed_unique c inflate s sel x y cels : forall back p q,
  composed c inflate s sel x y cels back p -> composed c inflate s sel x y cels back q -> p = q.
Proof.
  induction cels as [|cel cels IH]; intros back p q Hp Hq; inversion Hp; inversion Hq; subst; try reflexivity;
    repeat match goal with H : _ \/ _ |- _ => destruct H end; try congruence; try (eapply IH; eassumption).
  match goal with A : cel_image _ _ _ ?a, B : cel_image _ _ _ ?b |- _ => assert (a = b) as -> by (eapply cel_image_unique; [exact A|exact B]) end.
  repeat match goal with A : ?x = _, B : ?x = _ |- _ => rewrite A in B; injection B as B; try subst end.
  eapply IH; eassumption.
Qed.

(** ** C36 *)
Lemma render_too_small c i s : cfg_ok c -> is_bytes i -> addressable c i -> load c i = Ok s ->
  sprite_fits c s -> forall inflate sel k target, zlen target < canvas_size s ->
  render_frame c inflate s k target sel = Err (TargetBufferTooSmall, target).
Proof.
  intros Hc Hi Ha Hl Hfit inflate sel k t Ht. destruct (canvas_facts c i s Hc Hi Ha Hl) as [HW HH]. destruct Hfit as [HC _].
  unfold render_frame. unfold canvas_size, canvas_width, canvas_height in *.
  rewrite usizec_id by nia. cbn [bind]. rewrite usizec_id by nia. cbn [bind]. now replace (_ <? _) with true by lia.
Qed.

Lemma nth_error_ext' {A} (a b : list A) : (forall m, nth_error a m = nth_error b m) -> a = b.
Proof.
  revert b. induction a as [|x a IH]; intros [|y b] H; [reflexivity|specialize (H O); discriminate..|].
  pose proof (H O) as E. cbn in E. injection E as ->. f_equal. apply IH. intro m. apply (H (S m)).
Qed.
Lemma nth_error_skipn_ext {A} (a b : list A) n : (forall m, (n <= m)%nat -> nth_error a m = nth_error b m) -> skipn n a = skipn n b.
Proof.
  revert a b. induction n as [|n IH]; intros a b H.
  - cbn. apply nth_error_ext'. intro m. apply H. lia.
  - destruct a as [|x a], b as [|y b]; cbn [skipn]; try reflexivity.
    + rewrite <- (IH [] b); [now destruct n|]. intros m Hm. pose proof (H (S m) ltac:(lia)) as G. cbn in G. rewrite <- G. now destruct m.
    + rewrite (IH a []); [now destruct n|]. intros m Hm. pose proof (H (S m) ltac:(lia)) as G. cbn in G. rewrite G. now destruct m.
    + apply IH. intros m Hm. apply (H (S m)). lia.
Qed.

Lemma render_buffer c i s : cfg_ok c -> is_bytes i -> addressable c i -> load c i = Ok s ->
  forall inflate, inflate_ok inflate -> sprite_fits c s ->
  forall sel k sf target, nth_error (api_frames s) k = Some sf -> is_bytes target -> canvas_size s <= zlen target ->
  match render_frame c inflate s (Z.of_nat k) target sel with
  | Ok r => zlen r = zlen target /\ is_bytes r /\
      skipn (Z.to_nat (canvas_size s)) r = skipn (Z.to_nat (canvas_size s)) target
  | Err _ => False
  | Panic q => q <> PIndex
  end.
Proof.
  intros Hc Hi Ha Hl inflate Hinf Hfit sel k sf t Hk Hb H. rewrite (render_frame_eq c i s Hc Hi Ha Hl inflate Hfit sel k sf t Hk).
  replace (_ <? _) with false by lia.
  pose proof (cels_outcome c i s Hc Hi Ha Hl inflate Hinf Hfit sel _ (frame_cels_ok c i s Hc Hi Ha Hl k sf Hk) t Hb H) as G.
  destruct (fold_out _ _ t) as [r|e|q].
  - destruct G as (L & B & N & _). split; [exact L|]. split; [exact B|]. apply nth_error_skipn_ext. intros m Hm. apply N. lia.
  - exact G.
  - destruct G as (cel & l & _ & _ & G). intros ->. destruct G as [[G _]|[[G _]|[[G _]|[G _]]]]; discriminate.
Qed.

(** ** C37 *)
Lemma render_panics c i s : cfg_ok c -> is_bytes i -> addressable c i -> load c i = Ok s ->
  forall inflate, inflate_ok inflate -> sprite_fits c s ->
  forall sel k sf target q, nth_error (api_frames s) k = Some sf -> is_bytes target ->
  render_frame c inflate s (Z.of_nat k) target sel = Panic q ->
  exists cel l, In cel (sf_cels sf) /\ drawn s sel cel = Some l /\
    ((q = PCopyLen /\ h_color_depth (f_header (af_file s)) = Rgba /\
        exists im, nth_error (af_images s) (Z.to_nat (fc_image_index cel)) = Some im /\
          im_compressed im = false /\ zlen (im_data im) <> rgba_size im) \/
     (q = PUnwrap /\ forall image, ~ cel_image inflate s cel image) \/
     (q = PExplicit /\ ~ known_mode (ly_blend_mode l)) \/
     (q = PDebugAssert /\ debug c = true /\ hsl (ly_blend_mode l))).
Proof.
  intros Hc Hi Ha Hl inflate Hinf Hfit sel k sf t q Hk Hb. rewrite (render_frame_eq c i s Hc Hi Ha Hl inflate Hfit sel k sf t Hk).
  destruct (Z.ltb_spec (zlen t) (canvas_size s)) as [H|H]; [discriminate|]. intro E.
  pose proof (cels_outcome c i s Hc Hi Ha Hl inflate Hinf Hfit sel _ (frame_cels_ok c i s Hc Hi Ha Hl k sf Hk) t Hb H) as G.
  rewrite E in G. exact G.
Qed.

Lemma no_image_raw inflate s cel im image : h_color_depth (f_header (af_file s)) = Rgba ->
  nth_error (af_images s) (Z.to_nat (fc_image_index cel)) = Some im -> im_compressed im = false ->
  zlen (im_data im) <> rgba_size im -> ~ cel_image inflate s cel image.
Proof.
  intros Hd Hj Hz Hn (im' & Hj' & H). assert (im' = im) as -> by congruence. unfold decoded, stored in H. rewrite Hd, Hz in H.
  destruct H as [-> H]. contradiction.
Qed.

Lemma render_succeeds c i s : cfg_ok c -> is_bytes i -> addressable c i -> load c i = Ok s ->
  forall inflate, inflate_ok inflate -> sprite_fits c s ->
  forall sel k sf target, nth_error (api_frames s) k = Some sf -> is_bytes target -> canvas_size s <= zlen target ->
  ((exists r, render_frame c inflate s (Z.of_nat k) target sel = Ok r) ->
   forall cel l, In cel (sf_cels sf) -> drawn s sel cel = Some l ->
     (exists image, cel_image inflate s cel image) /\ known_mode (ly_blend_mode l)) /\
  ((forall cel l, In cel (sf_cels sf) -> drawn s sel cel = Some l ->
     (exists image, cel_image inflate s cel image) /\ known_mode (ly_blend_mode l) /\
     (debug c = true -> separable (ly_blend_mode l))) ->
   exists r, render_frame c inflate s (Z.of_nat k) target sel = Ok r).
Proof.
  intros Hc Hi Ha Hl inflate Hinf Hfit sel k sf t Hk Hb H. rewrite (render_frame_eq c i s Hc Hi Ha Hl inflate Hfit sel k sf t Hk).
  replace (_ <? _) with false by lia.
  pose proof (cels_outcome c i s Hc Hi Ha Hl inflate Hinf Hfit sel _ (frame_cels_ok c i s Hc Hi Ha Hl k sf Hk) t Hb H) as G.
  destruct (fold_out _ _ t) as [r|e|q].
  - split; [|eauto]. intros _. apply G.
  - contradiction.
  - split; [intros [r Hr]; discriminate|]. intro Hd. exfalso. destruct G as (cel & l & Hin & Hdr & G).
    destruct (Hd cel l Hin Hdr) as ([image Him] & Hm & Hs). destruct G as [(_ & Hd1 & im & Hj & Hz & Hn)|[[_ G]|[[_ G]|(_ & D & G)]]].
    + eapply no_image_raw; eassumption.
    + exact (G _ Him).
    + exact (G Hm).
    + specialize (Hs D). destruct (ly_blend_mode l); contradiction.
Qed.

Lemma bad_frame c i s : cfg_ok c -> is_bytes i -> addressable c i -> load c i = Ok s -> sprite_fits c s ->
  forall inflate sel k target, nth_error (api_frames s) k = None -> canvas_size s <= zlen target ->
  render_frame c inflate s (Z.of_nat k) target sel = Panic PIndex.
Proof.
  intros Hc Hi Ha Hl Hfit inflate sel k t Hk Ht. destruct (canvas_facts c i s Hc Hi Ha Hl) as [HW HH]. destruct Hfit as [HC _].
  unfold render_frame. unfold canvas_size, canvas_width, canvas_height in *.
  rewrite usizec_id by nia. cbn [bind]. rewrite usizec_id by nia. cbn [bind]. replace (_ <? _) with false by lia.
  unfold get_index. replace (0 <=? Z.of_nat k) with true by lia. rewrite Nat2Z.id. unfold api_frames in Hk. now rewrite Hk.
Qed.

(** Witnesses *)
Definition gray_short_file : bytes :=
  hdr 1 16 1 1 ++ frm [layer_ch 1 0 0 255 [97]; raw_cel_ch 0 0 0 255 1 1 [1]].
Definition odd_mode_file : bytes :=
  hdr 1 32 1 1 ++ frm [layer_ch 1 0 99 255 [97]; raw_cel_ch 0 0 0 255 1 1 [1; 2; 3; 4]].
Definition hue_file : bytes :=
  hdr 1 32 1 1 ++ frm [layer_ch 1 0 12 255 [97]; raw_cel_ch 0 0 0 255 1 1 [1; 2; 3; 4]].
Lemma render_wrong_length c inflate : cfg_ok c ->
  exists i s, is_bytes i /\ addressable c i /\ load c i = Ok s /\ zlen (api_frames s) = 1 /\
    render_frame c inflate s 0 [0; 0; 0; 0] SelAll = Panic PCopyLen.
Proof.
  revert c. apply cfg_cases; (exists wrong_length_file; eexists; split; [apply bytes_by_compute; reflexivity|];
    split; [vm_compute; reflexivity|]; split; [vm_compute; reflexivity|]; split; vm_compute; reflexivity).
Qed.
Lemma render_unwraps c inflate : cfg_ok c ->
  exists i s e, is_bytes i /\ addressable c i /\ load c i = Ok s /\ zlen (api_frames s) = 1 /\
    load_image c inflate s 0 [0; 0; 0; 0] = Err e /\
    render_frame c inflate s 0 [0; 0; 0; 0] SelAll = Panic PUnwrap.
Proof.
  revert c. apply cfg_cases; (exists gray_short_file; do 2 eexists; split; [apply bytes_by_compute; reflexivity|];
    split; [vm_compute; reflexivity|]; split; [vm_compute; reflexivity|]; split; [vm_compute; reflexivity|];
    split; [vm_compute; reflexivity|vm_compute; reflexivity]).
Qed.
Lemma render_odd_mode c inflate : cfg_ok c ->
  exists i s, is_bytes i /\ addressable c i /\ load c i = Ok s /\ zlen (api_frames s) = 1 /\
    load_image c inflate s 0 [0; 0; 0; 0] = Ok [1; 2; 3; 4] /\
    render_frame c inflate s 0 [0; 0; 0; 0] SelAll = Panic PExplicit.
Proof.
  revert c. apply cfg_cases; (exists odd_mode_file; eexists; split; [apply bytes_by_compute; reflexivity|];
    split; [vm_compute; reflexivity|]; split; [vm_compute; reflexivity|]; split; [vm_compute; reflexivity|];
    split; [vm_compute; reflexivity|vm_compute; reflexivity]).
Qed.
Lemma render_hue c inflate : cfg_ok c -> debug c = true ->
  exists i s, is_bytes i /\ addressable c i /\ load c i = Ok s /\ zlen (api_frames s) = 1 /\
    load_image c inflate s 0 [0; 0; 0; 0] = Ok [1; 2; 3; 4] /\
    render_frame c inflate s 0 [9; 9; 9; 255] SelAll = Panic PDebugAssert.
Proof.
  revert c. apply (cfg_cases (fun c => debug c = true -> exists i s, is_bytes i /\ addressable c i /\ load c i = Ok s /\ zlen (api_frames s) = 1 /\
    load_image c inflate s 0 [0; 0; 0; 0] = Ok [1; 2; 3; 4] /\
    render_frame c inflate s 0 [9; 9; 9; 255] SelAll = Panic PDebugAssert)); intro D; try discriminate D;
   (exists hue_file; eexists; split; [apply bytes_by_compute; reflexivity|];
    split; [vm_compute; reflexivity|]; split; [vm_compute; reflexivity|]; split; [vm_compute; reflexivity|];
    split; [vm_compute; reflexivity|vm_compute; reflexivity]).
Qed.

(** ** C38 *)
Lemma render_cel_drawn c inflate s sel sel' t cel : drawn s sel cel = drawn s sel' cel ->
  render_cel c inflate s sel t cel = render_cel c inflate s sel' t cel.
Proof.
  unfold drawn, render_cel. destruct (nth_error (af_layers s) _) as [l|]; [|reflexivity]. rewrite !chosen_is.
  destruct (ly_layer_type l); cbn [layer_type_eqb orb]; try reflexivity; destruct (chosen sel _ l), (chosen sel' _ l); cbn; intro H; (reflexivity || discriminate).
Qed.
Lemma fold_out_ext {E A B} (f g : A -> B -> out E A) l : (forall a b, In b l -> f a b = g a b) -> forall a, fold_out f l a = fold_out g l a.
Proof.
  induction l as [|b l IH]; intros H a; cbn [fold_out]; [reflexivity|]. rewrite <- (H a b) by (now left).
  destruct (f a b); cbn [bind]; try reflexivity. apply IH. intros. apply H. now right.
Qed.
Lemma render_frame_drawn c inflate s k t sel sel' :
  (forall fr cel, In fr (api_frames s) -> In cel (sf_cels fr) -> drawn s sel cel = drawn s sel' cel) ->
  render_frame c inflate s k t sel = render_frame c inflate s k t sel'.
Proof.
  intro H. unfold render_frame. destruct (usizec c _) as [n| |]; cbn [bind]; try reflexivity.
  destruct (usizec c _) as [n'| |]; cbn [bind]; try reflexivity. destruct (_ <? _); [reflexivity|].
  unfold get_index. destruct (0 <=? k); cbn [bind]; [|reflexivity].
  destruct (nth_error (af_frames s) (Z.to_nat k)) as [fr|] eqn:E; cbn [bind]; [|reflexivity].
  apply fold_out_ext. intros a b Hb. apply render_cel_drawn. eapply H; [eapply nth_error_In, E|exact Hb].
Qed.

Lemma chosen_select s p k l : nth_error (af_layers s) (Z.to_nat k) = Some l -> chosen (select_layers s p) k l = p l.
Proof. intro H. cbn. rewrite nth_error_map, H. reflexivity. Qed.
Lemma drawn_select s p cel :
  drawn s (select_layers s p) cel =
  match nth_error (api_layers s) (Z.to_nat (fc_layer_index cel)) with
  | Some l => match ly_layer_type l with LGroup => None | _ => if p l then Some l else None end
  | None => None
  end.
Proof.
  unfold drawn, api_layers. destruct (nth_error (af_layers s) _) as [l|] eqn:E; [|reflexivity].
  now rewrite (chosen_select s p _ l E).
Qed.
Lemma select_same c inflate s sel p : (forall k l, nth_error (api_layers s) k = Some l -> ly_layer_type l <> LGroup -> chosen sel (Z.of_nat k) l = p l) ->
  forall k t, render_frame c inflate s k t sel = render_frame c inflate s k t (select_layers s p).
Proof.
  intros H k t. apply render_frame_drawn. intros fr cel _ _. rewrite drawn_select. unfold drawn, api_layers in *.
  destruct (nth_error (af_layers s) _) as [l|] eqn:E; [|reflexivity].
  assert (G : ly_layer_type l <> LGroup -> chosen sel (fc_layer_index cel) l = p l).
  { intro Hg. rewrite <- (H _ l E Hg). destruct sel as [| |mask]; try reflexivity. cbn. now rewrite Nat2Z.id. }
  destruct (ly_layer_type l) eqn:Et; try reflexivity; rewrite G by congruence; reflexivity.
Qed.
Lemma select_visible c inflate s k t : render_frame c inflate s k t SelVisible = render_frame c inflate s k t (select_layers s ly_visible).
Proof. now apply select_same. Qed.
Lemma select_all c inflate s k t : render_frame c inflate s k t SelAll = render_frame c inflate s k t (select_layers s (fun _ => true)).
Proof. now apply select_same. Qed.
Lemma padded mask n : forall j, match nth_error (mask ++ repeat false n) j with Some b => b | None => false end =
  match nth_error mask j with Some b => b | None => false end.
Proof.
  induction mask as [|b m IH]; intro j.
  - cbn [app]. destruct (nth_error (repeat false n) j) as [b|] eqn:E; [|now destruct j].
    apply nth_error_In, repeat_spec in E. rewrite E. now destruct j.
  - destruct j as [|j]; [reflexivity|]. apply IH.
Qed.
Lemma mask_padding c inflate s k t mask n :
  render_frame c inflate s k t (SelMask (mask ++ repeat false n)) = render_frame c inflate s k t (SelMask mask).
Proof.
  apply render_frame_drawn. intros fr cel _ _. unfold drawn. destruct (nth_error (af_layers s) _) as [l|]; [|reflexivity].
  assert (E : chosen (SelMask (mask ++ repeat false n)) (fc_layer_index cel) l = chosen (SelMask mask) (fc_layer_index cel) l).
  { cbn. apply padded. }
  now rewrite E.
Qed.
Lemma list_eqb_eq (a b : bytes) : list_eqb a b = true <-> a = b.
Proof.
  revert b. induction a as [|x a IH]; intros [|y b]; cbn; try (split; (reflexivity || discriminate)).
  rewrite andb_true_iff, IH, Z.eqb_eq. split; [intros [-> ->]; reflexivity|intros [= -> ->]; auto].
Qed.
Lemma drawn_by_name s names cel l : drawn s (select_layers_by_name s names) cel = Some l <->
  nth_error (api_layers s) (Z.to_nat (fc_layer_index cel)) = Some l /\ ly_layer_type l <> LGroup /\ In (ly_name l) names.
Proof.
  unfold select_layers_by_name. rewrite drawn_select. destruct (nth_error (api_layers s) _) as [l0|]; [|split; [discriminate|now intros []]].
  assert (X : existsb (fun n => list_eqb n (ly_name l0)) names = true <-> In (ly_name l0) names).
  { rewrite existsb_exists. split.
    - intros (n & Hn & E). apply list_eqb_eq in E. now subst n.
    - intro H. exists (ly_name l0). split; [exact H|]. now apply list_eqb_eq. }
  split.
  - intro H. assert (l0 = l) as -> by (destruct (ly_layer_type l0); try discriminate; destruct (existsb _ _); congruence).
    split; [reflexivity|]. destruct (ly_layer_type l); try discriminate; (split; [discriminate|]); apply X; destruct (existsb _ _); congruence.
  - intros ([= ->] & Hg & Hn). apply X in Hn. rewrite Hn. destruct (ly_layer_type l); congruence.
Qed.
Lemma nothing_selected c i s : cfg_ok c -> is_bytes i -> addressable c i -> load c i = Ok s ->
  forall inflate, sprite_fits c s ->
  forall sel k sf target, nth_error (api_frames s) k = Some sf -> canvas_size s <= zlen target ->
  (forall n l, nth_error (api_layers s) n = Some l -> ly_layer_type l <> LGroup -> chosen sel (Z.of_nat n) l = false) ->
  render_frame c inflate s (Z.of_nat k) target sel = Ok target.
Proof.
  intros Hc Hi Ha Hl inflate Hfit sel k sf t Hk Ht H. rewrite (select_same c inflate s sel (fun _ => false) H).
  rewrite (render_frame_eq c i s Hc Hi Ha Hl inflate Hfit _ k sf t Hk). replace (_ <? _) with false by lia.
  pose proof (frame_cels_ok c i s Hc Hi Ha Hl k sf Hk) as HF. clear Hk. induction HF as [|cel cels Hok HF IH]; [reflexivity|].
  cbn [fold_out]. rewrite (render_cel_eq c i s Hc Hi Ha Hl inflate Hfit _ cel t Hok).
  assert (E : drawn s (select_layers s (fun _ => false)) cel = None).
  { rewrite drawn_select. destruct (nth_error _ _) as [l|]; [|reflexivity]. now destruct (ly_layer_type l). }
  rewrite E. cbn [bind]. exact IH.
Qed.

(** ** C39 *)
Lemma render_cel_image c inflate s s' sel sel' cel cel' l l' t :
  0 <= fc_image_index cel -> 0 <= fc_image_index cel' ->
  same_canvas s s' -> f_palette (af_file s) = f_palette (af_file s') ->
  drawn s sel cel = Some l -> drawn s' sel' cel' = Some l' ->
  fc_origin cel = fc_origin cel' -> fc_size cel = fc_size cel' ->
  nth_error (af_images s) (Z.to_nat (fc_image_index cel)) = nth_error (af_images s') (Z.to_nat (fc_image_index cel')) ->
  ly_blend_mode l = ly_blend_mode l' -> ly_opacity l = ly_opacity l' ->
  render_cel c inflate s sel t cel = render_cel c inflate s' sel' t cel'.
Proof.
  intros H0 H0' (Hw & Hht & Hh) Hp Hd Hd' Ho Hs Hj Hm Hop. unfold canvas_width, canvas_height in *.
  assert (EI : forall b, load_image c inflate s (fc_image_index cel) b = load_image c inflate s' (fc_image_index cel') b).
  { intro b. unfold load_image, get_index. replace (0 <=? fc_image_index cel) with true by lia.
    replace (0 <=? fc_image_index cel') with true by lia. rewrite Hj.
    destruct (nth_error (af_images s') _) as [im|]; cbn [bind]; [|reflexivity].
    destruct (usizec c _); cbn [bind]; try reflexivity. destruct (usizec c _); cbn [bind]; try reflexivity.
    destruct (_ <? _); [reflexivity|]. unfold decode_image. now rewrite Hh, Hp. }
  assert (EP : forall img f b, render_pixels c (h_width (f_header (af_file s))) (h_height (f_header (af_file s))) cel img f (ly_opacity l) b
             = render_pixels c (h_width (f_header (af_file s'))) (h_height (f_header (af_file s'))) cel' img f (ly_opacity l') b).
  { intros img f b. unfold render_pixels, render_pixel. now rewrite Hw, Hht, Hs, Ho, Hop. }
  assert (G : forall s sel cel l, drawn s sel cel = Some l ->
    render_cel c inflate s sel t cel =
      let* n := usizec c (fst (fc_size cel) * snd (fc_size cel)) in
      let* n := usizec c (n * 4) in
      let* cel_target := vec_zeroed c n in
      let* cel_target := unwrap (load_image c inflate s (fc_image_index cel) cel_target) in
      let* f := lift (blend_mode_to_blend_fn c (ly_blend_mode l)) in
      render_pixels c (h_width (f_header (af_file s))) (h_height (f_header (af_file s))) cel cel_target f (ly_opacity l) t).
  { clear. intros s sel cel l. unfold drawn, render_cel. destruct (nth_error (af_layers s) _) as [l0|]; [|discriminate].
    rewrite chosen_is. destruct (ly_layer_type l0); try discriminate; destruct (chosen sel _ l0); try discriminate; intros [= ->]; reflexivity. }
  rewrite (G s sel cel l Hd), (G s' sel' cel' l' Hd'), Hs, Hm.
  destruct (usizec c _); cbn [bind]; try reflexivity. destruct (usizec c _); cbn [bind]; try reflexivity.
  destruct (vec_zeroed c _); cbn [bind]; try reflexivity. rewrite EI.
  destruct (unwrap _); cbn [bind]; try reflexivity. destruct (lift _); cbn [bind]; try reflexivity. apply EP.
Qed.

Lemma render_cel_none c inflate s sel t cel : drawn s sel cel = None -> render_cel c inflate s sel t cel = Ok t.
Proof.
  unfold drawn, render_cel. destruct (nth_error (af_layers s) _) as [l|]; [|reflexivity]. rewrite chosen_is.
  destruct (ly_layer_type l); try reflexivity; destruct (chosen sel _ l); try reflexivity; discriminate.
Qed.

Lemma fold_shown c inflate s s' sel sel' : 
  same_canvas s s' -> f_palette (af_file s) = f_palette (af_file s') ->
  forall cels cels', Forall (cel_ok s) cels -> Forall (cel_ok s') cels' -> shown s sel cels = shown s' sel' cels' ->
  forall t, fold_out (render_cel c inflate s sel) cels t = fold_out (render_cel c inflate s' sel') cels' t.
Proof.
  intros Hh Hp.
  assert (Skip : forall s sel cels t, shown s sel cels = [] -> fold_out (render_cel c inflate s sel) cels t = Ok t).
  { clear. intros s sel cels t. induction cels as [|cel cels IH]; cbn [fold_out shown flat_map]; [reflexivity|].
    destruct (drawn s sel cel) eqn:E; [discriminate|]. intro H. rewrite render_cel_none by exact E. cbn [bind]. now apply IH. }
  assert (Next : forall s sel cels x rest, Forall (cel_ok s) cels -> shown s sel cels = x :: rest ->
    exists cel l cels1, drawn s sel cel = Some l /\ cel_ok s cel /\ Forall (cel_ok s) cels1 /\ shown s sel cels1 = rest /\
      x = (fc_origin cel, fc_size cel, nth_error (af_images s) (Z.to_nat (fc_image_index cel)), ly_blend_mode l, ly_opacity l) /\
      forall t, fold_out (render_cel c inflate s sel) cels t = bind (render_cel c inflate s sel t cel) (fold_out (render_cel c inflate s sel) cels1)).
  { clear. intros s sel cels x rest HF. induction HF as [|cel cels Hok HF IH]; cbn [shown flat_map]; [discriminate|].
    destruct (drawn s sel cel) as [l|] eqn:E.
    - intros [= <- Hr]. exists cel, l, cels. repeat (split; [assumption || reflexivity|]). reflexivity.
    - intro H. destruct (IH H) as (cel1 & l & cels1 & H1 & H2 & H3 & H4 & H5 & H6). exists cel1, l, cels1.
      repeat (split; [assumption|]). intro t. cbn [fold_out]. rewrite render_cel_none by exact E. cbn [bind]. apply H6. }
  intros cels cels' HF HF' HS. remember (shown s sel cels) as xs eqn:Ex. revert cels cels' HF HF' Ex HS.
  induction xs as [|x xs IH]; intros cels cels' HF HF' Ex HS t.
  - now rewrite !Skip by congruence.
  - symmetry in Ex, HS. destruct (Next _ _ _ _ _ HF Ex) as (cel & l & cels1 & D & Ok1 & F1 & S1 & X1 & ->).
    destruct (Next _ _ _ _ _ HF' HS) as (cel' & l' & cels1' & D' & Ok1' & F1' & S1' & X1' & ->).
    rewrite X1 in X1'. injection X1' as E1 E2 E3 E4 E5.
    rewrite (render_cel_image c inflate s s' sel sel' cel cel' l l' t (proj1 Ok1) (proj1 Ok1') Hh Hp D D' E1 E2 E3 E4 E5).
    destruct (render_cel c inflate s' sel' t cel') as [t1| |]; cbn [bind]; try reflexivity. apply IH; auto.
Qed.

Lemma same_picture c i s i' s' : cfg_ok c -> is_bytes i -> addressable c i -> load c i = Ok s ->
  is_bytes i' -> addressable c i' -> load c i' = Ok s' ->
  same_canvas s s' -> f_palette (af_file s) = f_palette (af_file s') ->
  forall sel sel' k sf k' sf', nth_error (api_frames s) k = Some sf -> nth_error (api_frames s') k' = Some sf' ->
  shown s sel (sf_cels sf) = shown s' sel' (sf_cels sf') ->
  forall inflate target, render_frame c inflate s (Z.of_nat k) target sel = render_frame c inflate s' (Z.of_nat k') target sel'.
Proof.
  intros Hc Hi Ha Hl Hi' Ha' Hl' Hh Hp sel sel' k sf k' sf' Hk Hk' HS inflate t.
  pose proof Hh as (Hw & Hht & _). unfold canvas_width, canvas_height in *. unfold render_frame. rewrite Hw, Hht. destruct (usizec c _); cbn [bind]; try reflexivity. destruct (usizec c _); cbn [bind]; try reflexivity.
  destruct (_ <? _); [reflexivity|].
  rewrite (get_index_ok _ (Z.of_nat k) sf) by (rewrite ?Nat2Z.id; (assumption || lia)).
  rewrite (get_index_ok _ (Z.of_nat k') sf') by (rewrite ?Nat2Z.id; (assumption || lia)). cbn [bind].
  apply fold_shown; try assumption; [exact (frame_cels_ok c i s Hc Hi Ha Hl k sf Hk)|exact (frame_cels_ok c i' s' Hc Hi' Ha' Hl' k' sf' Hk')].
Qed.

Lemma groups_not_drawn s sel cel l : nth_error (api_layers s) (Z.to_nat (fc_layer_index cel)) = Some l -> ly_layer_type l = LGroup ->
  drawn s sel cel = None.
Proof. unfold drawn, api_layers. intros -> ->. reflexivity. Qed.

(** ** C40 *)
(** One opaque pixel, in a cel of opacity [o]. *)
Definition cel_opacity_file (o : Z) : bytes :=
  hdr 1 32 1 1 ++ frm [layer_ch 1 0 0 255 [97]; raw_cel_ch 0 0 0 o 1 1 [1; 2; 3; 255]].
Lemma opacity_ignored c inflate : cfg_ok c ->
  exists i s x, is_bytes i /\ addressable c i /\ load c i = Ok s /\ zlen (api_frames s) = 1 /\
    map fr_cels (f_frames (af_file s)) = [[Some x]] /\ cc_opacity x = 0 /\
    render_frame c inflate s 0 [9; 9; 9; 255] SelAll = Ok [1; 2; 3; 255].
Proof.
  revert c. apply cfg_cases; (exists (cel_opacity_file 0); do 2 eexists; split; [apply bytes_by_compute; reflexivity|];
    split; [vm_compute; reflexivity|]; split; [vm_compute; reflexivity|]; split; [vm_compute; reflexivity|];
    split; [reflexivity|]; split; [reflexivity|vm_compute; reflexivity]).
Qed.

(** ** C41 *)
Definition hidden_group_file : bytes :=
  hdr 1 32 1 1 ++ frm [layer_ch_at 0 0 1 0 255 [103]; layer_ch_at 1 1 0 0 255 [97]; raw_cel_ch 1 0 0 255 1 1 [1; 2; 3; 255]].
Lemma hidden_group_drawn c inflate : cfg_ok c ->
  exists i s group child, is_bytes i /\ addressable c i /\ load c i = Ok s /\ zlen (api_frames s) = 1 /\
    f_layers (af_file s) = [group; child] /\ lc_layer_type group = LGroup /\ lc_child_level group = 0 /\ lc_child_level child = 1 /\
    map ly_visible (api_layers s) = [false; true] /\
    render_frame c inflate s 0 [9; 9; 9; 255] SelVisible = Ok [1; 2; 3; 255].
Proof.
  revert c. apply cfg_cases; (exists hidden_group_file; do 3 eexists; split; [apply bytes_by_compute; reflexivity|];
    split; [vm_compute; reflexivity|]; split; [vm_compute; reflexivity|]; split; [vm_compute; reflexivity|];
    split; [reflexivity|]; split; [reflexivity|]; split; [reflexivity|]; split; [reflexivity|]; split; [vm_compute; reflexivity|vm_compute; reflexivity]).
Qed.

(** ** C42 *)
Lemma combined_eq hasher : exists hash : list frame_cel -> Z,
  (forall c inflate s k sf target, nth_error (api_frames s) k = Some sf ->
   combined_frame_image c inflate hasher s (Z.of_nat k) target =
   match render_frame c inflate s (Z.of_nat k) target SelVisible with
   | Ok r => Ok (r, hash (sf_cels sf))
   | Err e => Err e
   | Panic q => Panic q
   end) /\
  ((forall a b, hasher a = hasher b -> a = b) -> forall a b, hash a = hash b -> a = b).
Proof.
  exists (fun cels => hasher (flat_map hash_cel cels)). split.
  - intros c inflate s k sf t Hk. unfold combined_frame_image. destruct (render_frame _ _ _ _ _ _) as [r| |]; cbn [bind]; try reflexivity.
    rewrite (get_index_ok _ (Z.of_nat k) sf) by (rewrite ?Nat2Z.id; (assumption || lia)). reflexivity.
  - intros Hinj a b H. apply Hinj in H. revert b H. induction a as [|x a IH]; intros [|y b] H; try discriminate; [reflexivity|].
    cbn [flat_map hash_cel app] in H. injection H as H1 H2 H3 H4 H5 H6 H7. f_equal; [|now apply IH].
    destruct x as [[ox oy] [w h] li ii], y as [[ox' oy'] [w' h'] li' ii']. cbn in *. congruence.
Qed.
Lemma same_cels c inflate s k k' sf sf' target sel : nth_error (api_frames s) k = Some sf -> nth_error (api_frames s) k' = Some sf' ->
  sf_cels sf = sf_cels sf' ->
  render_frame c inflate s (Z.of_nat k) target sel = render_frame c inflate s (Z.of_nat k') target sel.
Proof.
  intros Hk Hk' E. unfold render_frame.
  rewrite (get_index_ok _ (Z.of_nat k) sf) by (rewrite ?Nat2Z.id; (assumption || lia)).
  rewrite (get_index_ok _ (Z.of_nat k') sf') by (rewrite ?Nat2Z.id; (assumption || lia)). cbn [bind]. now rewrite E.
Qed.
Lemma combined_same_cels c inflate hasher s k k' sf sf' target : nth_error (api_frames s) k = Some sf -> nth_error (api_frames s) k' = Some sf' ->
  sf_cels sf = sf_cels sf' ->
  combined_frame_image c inflate hasher s (Z.of_nat k) target = combined_frame_image c inflate hasher s (Z.of_nat k') target.
Proof.
  intros Hk Hk' E. destruct (combined_eq hasher) as (hash & H & _). rewrite (H c inflate s k sf target Hk), (H c inflate s k' sf' target Hk').
  now rewrite (same_cels c inflate s k k' sf sf' target _ Hk Hk' E), E.
Qed.

(** ** C52 *)
Lemma canvas_test c i s : cfg_ok c -> is_bytes i -> addressable c i -> load c i = Ok s -> 
  forall inflate, inflate_ok inflate -> sprite_fits c s ->
  forall sel k sf target, nth_error (api_frames s) k = Some sf -> is_bytes target ->
  (exists t, render_frame c inflate s (Z.of_nat k) target sel = Err (TargetBufferTooSmall, t)) <->
  zlen target < canvas_width s * canvas_height s * 4.
Proof.
  intros Hc Hi Ha Hl inflate Hinf Hfit sel k sf t Hk Hb. change (canvas_width s * canvas_height s * 4) with (canvas_size s). split.
  - intros [t' E]. destruct (Z.ltb_spec (zlen t) (canvas_size s)) as [H|H]; [exact H|].
    pose proof (render_buffer c i s Hc Hi Ha Hl inflate Hinf Hfit sel k sf t Hk Hb H) as G. rewrite E in G. contradiction.
  - intro H. exists t. now apply (render_too_small c i s Hc Hi Ha Hl Hfit).
Qed.

(** ** C40, C56: what of a cel takes part *)
Definition drawn_same_way (a b : layer) : Prop :=
  ly_layer_type a = ly_layer_type b /\
  (ly_layer_type a <> LGroup -> ly_blend_mode a = ly_blend_mode b /\ ly_opacity a = ly_opacity b /\ ly_visible a = ly_visible b).
Lemma render_frame_ext c inflate s s' : same_canvas s s' -> f_palette (af_file s) = f_palette (af_file s') ->
  Forall2 drawn_same_way (af_layers s) (af_layers s') -> af_images s = af_images s' -> map sf_cels (af_frames s) = map sf_cels (af_frames s') ->
  forall k t sel, render_frame c inflate s k t sel = render_frame c inflate s' k t sel.
Proof.
  intros (Hw & Hht & Hh) Hp Hl Hi Hf k t sel. unfold canvas_width, canvas_height in *. unfold render_frame. rewrite Hw, Hht.
  destruct (usizec c _); cbn [bind]; try reflexivity. destruct (usizec c _); cbn [bind]; try reflexivity.
  destruct (_ <? _); [reflexivity|]. unfold get_index. destruct (0 <=? k); [|reflexivity].
  pose proof (f_equal (fun l => nth_error l (Z.to_nat k)) Hf) as E. cbn in E. rewrite !nth_error_map in E.
  destruct (nth_error (af_frames s) (Z.to_nat k)) as [fa|], (nth_error (af_frames s') (Z.to_nat k)) as [fb|]; cbn in E; try discriminate; cbn [bind]; [|reflexivity].
  injection E as ->. apply fold_out_ext. intros a' cel _. unfold render_cel. rewrite Hw, Hht.
  assert (EI : forall b, load_image c inflate s (fc_image_index cel) b = load_image c inflate s' (fc_image_index cel) b).
  { intro b'. unfold load_image, decode_image. now rewrite Hi, Hh, Hp. }
  assert (D : match nth_error (af_layers s) (Z.to_nat (fc_layer_index cel)), nth_error (af_layers s') (Z.to_nat (fc_layer_index cel)) with
              | Some l, Some l' => drawn_same_way l l' | None, None => True | _, _ => False end).
  { clear - Hl. generalize (Z.to_nat (fc_layer_index cel)). induction Hl as [|x y a b H Hl IH]; intros [|n]; cbn; [exact I|exact I|exact H|apply IH]. }
  destruct (nth_error (af_layers s) _) as [l|], (nth_error (af_layers s') _) as [l'|]; try contradiction; [|reflexivity].
  destruct D as [D1 D2]. rewrite <- D1. destruct (layer_type_eqb (ly_layer_type l) LGroup) eqn:G; [reflexivity|].
  destruct D2 as (D2 & D3 & D4). { intros T. rewrite T in G. discriminate. }
  assert (S : is_selected sel (fc_layer_index cel) l = is_selected sel (fc_layer_index cel) l') by (destruct sel; cbn; congruence).
  rewrite S. cbn [orb]. destruct (negb _); [reflexivity|]. rewrite D2, D3.
  destruct (usizec c _); cbn [bind]; try reflexivity. destruct (usizec c _); cbn [bind]; try reflexivity.
  destruct (vec_zeroed c _); cbn [bind]; try reflexivity.
  now rewrite EI.
Qed.

Lemma build_frames_same v m : forall (a b : list frame), Forall2 same_slots (map fr_cels a) (map fr_cels b) -> forall k x y,
  map_out (build_frame v m) (combine (map Z.of_nat (seq k (length a))) a) = Ok x ->
  map_out (build_frame v m) (combine (map Z.of_nat (seq k (length b))) b) = Ok y -> map sf_cels x = map sf_cels y.
Proof.
  assert (C : forall n a b, same_slots a b -> map_out (build_cel v m n) (somes a) = map_out (build_cel v m n) (somes b)).
  { intros n a b H. induction H as [|o o' a' b' Ho H IH]; [reflexivity|].
    destruct o as [x|], o' as [y|]; try contradiction; cbn [somes map_out]; [|exact IH].
    destruct Ho as (H1 & H2 & H3 & H4).
    replace (build_cel v m n y) with (build_cel v m n x); [now rewrite IH|]. unfold build_cel, cel_image_index. now rewrite H1, H2, H3, H4. }
  clear - C. induction a as [|f a IH]; intros [|g b] H k x y Hx Hy; cbn [map] in H; inversion H as [|? ? ? ? H1 H2]; subst.
  - cbn in Hx, Hy. injection Hx as <-. injection Hy as <-. reflexivity.
  - cbn [length seq map combine map_out] in Hx, Hy. unfold build_frame in Hx at 1, Hy at 1. cbn [fst snd] in Hx, Hy.
    rewrite (C _ _ _ H1) in Hx. destruct (map_out (build_cel v m (Z.of_nat k)) (somes (fr_cels g))) as [cels| |]; cbn [bind] in Hx, Hy; try discriminate.
    destruct (map_out (build_frame v m) (combine _ a)) as [x'| |] eqn:Ex; cbn [bind] in Hx; try discriminate.
    destruct (map_out (build_frame v m) (combine _ b)) as [y'| |] eqn:Ey; cbn [bind] in Hy; try discriminate.
    injection Hx as <-. injection Hy as <-. cbn [map sf_cels]. f_equal. eapply IH; eassumption.
Qed.
Lemma collect_same : forall (a b : list frame), Forall2 same_slots (map fr_cels a) (map fr_cels b) -> forall k st,
  fold_left collect_frame (combine (map Z.of_nat (seq k (length a))) a) st =
  fold_left collect_frame (combine (map Z.of_nat (seq k (length b))) b) st.
Proof.
  assert (C : forall n a b, same_slots a b -> forall st, fold_left (collect_cel n) (somes a) st = fold_left (collect_cel n) (somes b) st).
  { intros n a b H. induction H as [|o o' a' b' Ho H IH]; intro st; [reflexivity|].
    destruct o as [x|], o' as [y|]; try contradiction; cbn [somes fold_left]; [|apply IH].
    destruct Ho as (H1 & H2 & H3 & H4). replace (collect_cel n st y) with (collect_cel n st x); [apply IH|].
    unfold collect_cel. now rewrite H1, H4. }
  induction a as [|f a IH]; intros [|g b] H k st; cbn [map] in H; inversion H as [|? ? ? ? H1 H2]; subst; [reflexivity|].
  cbn [length seq map combine fold_left]. unfold collect_frame at 2 4. cbn [fst snd]. rewrite (C _ _ _ H1). now apply IH.
Qed.

Lemma build_layers_alike a b : Forall2 drawn_alike a b -> Forall2 drawn_same_way (build_layers a) (build_layers b).
Proof.
  induction 1 as [|x y a b [H1 H2] H IH]; [constructor|]. unfold build_layers in *. cbn [filter]. assert (K : keep_layer y = keep_layer x) by (unfold keep_layer; now rewrite H1). rewrite K.
  assert (E : keep_layer x = layer_type_eqb (lc_layer_type x) LNormal || layer_type_eqb (lc_layer_type x) LGroup) by reflexivity.
  rewrite E. clear K E. destruct (lc_layer_type x) eqn:T; cbn [layer_type_eqb orb map]; try exact IH.
  - constructor; [|exact IH]. unfold drawn_same_way, build_layer. cbn. rewrite <- H1, T. split; [reflexivity|]. intros _.
    destruct (H2 eq_refl) as (A & B & C). rewrite A, B. repeat split. now rewrite !visible_bit.
  - constructor; [|exact IH]. unfold drawn_same_way, build_layer. cbn. rewrite <- H1, T. split; [reflexivity|]. now intros [].
Qed.
Lemma only_drawn_layers c i s i' s' : load c i = Ok s -> load c i' = Ok s' ->
  same_canvas s s' -> f_palette (af_file s) = f_palette (af_file s') ->
  Forall2 drawn_alike (f_layers (af_file s)) (f_layers (af_file s')) ->
  Forall2 same_slots (map fr_cels (f_frames (af_file s))) (map fr_cels (f_frames (af_file s'))) ->
  forall inflate k target sel, render_frame c inflate s k target sel = render_frame c inflate s' k target sel.
Proof.
  intros Hl Hl' Hh Hp Hy Hs inflate k t sel. apply loaded_build in Hl, Hl'. unfold build_sprite in Hl, Hl'.
  pose proof (collect_same _ _ Hs 0 ([], [])) as E. change (collect_images (f_frames (af_file s)) = collect_images (f_frames (af_file s'))) in E.
  rewrite E in Hl. destruct (collect_images (f_frames (af_file s'))) as [v m].
  unfold enumerate in *.
  destruct (map_out (build_frame v m) (combine _ (f_frames (af_file s)))) as [x| |] eqn:Ex; cbn [bind] in Hl; try discriminate.
  destruct (map_out (build_frame v m) (combine _ (f_frames (af_file s')))) as [y| |] eqn:Ey; cbn [bind] in Hl'; try discriminate.
  pose proof (build_frames_same v m _ _ Hs _ _ _ Ex Ey) as EF.
  injection Hl as Es. injection Hl' as Es'. rewrite <- Es, <- Es' in *. cbn in *. apply render_frame_ext; cbn; try assumption; [|reflexivity].
  now apply build_layers_alike.
Qed.
Lemma only_place_and_content c i s i' s' : load c i = Ok s -> load c i' = Ok s' ->
  same_canvas s s' -> f_palette (af_file s) = f_palette (af_file s') ->
  f_layers (af_file s) = f_layers (af_file s') ->
  Forall2 same_slots (map fr_cels (f_frames (af_file s))) (map fr_cels (f_frames (af_file s'))) ->
  forall inflate k target sel, render_frame c inflate s k target sel = render_frame c inflate s' k target sel.
Proof.
  intros Hl Hl' Hh Hp Hy. apply (only_drawn_layers c i s i' s' Hl Hl' Hh Hp). rewrite Hy. clear.
  induction (f_layers (af_file s')); constructor; [|assumption]. unfold drawn_alike. auto.
Qed.

(** Two opaque pixels on top of each other; the lower one has z-index 5. *)
Definition z_cel (layer z : Z) (pixels : bytes) : bytes :=
  encode_chunk 0x2005 (le 2 layer ++ les 2 0 ++ les 2 0 ++ le 1 255 ++ le 2 0 ++ les 2 z ++ repeat 0 5 ++ le 2 1 ++ le 2 1 ++ pixels).
Definition z_file : bytes :=
  hdr 1 32 1 1 ++ frm [layer_ch 1 0 0 255 [97]; layer_ch 1 0 0 255 [98]; z_cel 0 5 [1; 2; 3; 255]; z_cel 1 0 [4; 5; 6; 255]].
Lemma z_ignored c inflate : cfg_ok c ->
  exists i s x y, is_bytes i /\ addressable c i /\ load c i = Ok s /\ zlen (api_frames s) = 1 /\
    map fr_cels (f_frames (af_file s)) = [[Some x; Some y]] /\ cc_z_index x = 5 /\ cc_z_index y = 0 /\
    load_image c inflate s 0 [0; 0; 0; 0] = Ok [1; 2; 3; 255] /\
    load_image c inflate s 1 [0; 0; 0; 0] = Ok [4; 5; 6; 255] /\
    render_frame c inflate s 0 [9; 9; 9; 255] SelAll = Ok [4; 5; 6; 255].
Proof.
  revert c. apply cfg_cases; (exists z_file; do 3 eexists; split; [apply bytes_by_compute; reflexivity|];
    split; [vm_compute; reflexivity|]; split; [vm_compute; reflexivity|]; split; [vm_compute; reflexivity|];
    split; [reflexivity|]; split; [reflexivity|]; split; [reflexivity|]; split; [vm_compute; reflexivity|];
    split; [vm_compute; reflexivity|vm_compute; reflexivity]).
Qed.
