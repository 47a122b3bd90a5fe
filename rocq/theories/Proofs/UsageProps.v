(** The example program of the readme; public helper functions on any values. *)
From Verif.Model Require Import Loader.
From Verif.Spec Require Import Bytes Format FileSpec ImageSpec BlendSpec RenderSpec Refusals Usage.
From Verif.Proofs Require Import ParseLib RawFacts FileFacts PaletteFacts LoaderProps FileFinal CompositeProps RenderFacts RenderProps ExactProps RefusalProps.

(** ** create_palette *)
Section Palette.
Context (c : cfg) (Hc : cfg_ok c).

Definition wide_packet (k : packet) : Prop :=
  0 <= pk_entries_to_skip k < 2 ^ 8 /\ 3 * zlen (pk_colors k) < 2 ^ (usize_bits c - 1).

Lemma wide_sum a n : 0 <= a <= 511 -> 0 <= n -> 3 * n < 2 ^ (usize_bits c - 1) -> a + n < 2 ^ usize_bits c.
Proof.
  intros Ha Hn H. destruct (usize_pow c Hc) as [P _].
  assert (E : 2 ^ usize_bits c = 2 * 2 ^ (usize_bits c - 1)).
  { destruct Hc as [E|E]; rewrite E; reflexivity. }
  change (2 ^ 32) with 4294967296 in P. lia.
Qed.

Lemma wide_packets_loop ps : Forall wide_packet ps -> forall a ws, 0 <= a <= 256 ->
  fold_out (old_packet c) ps (painted ws, a, nonempty ws) =
  match old_writes a ps with
  | Some new => Ok (painted (ws ++ new), fold_left (fun k p => k + pk_entries_to_skip p + zlen (pk_colors p)) ps a,
                    nonempty (ws ++ new))
  | None => Err PIndexOOB
  end.
Proof.
  induction 1 as [|p ps [H1 H2] H IH]; intros a ws Ha; cbn [fold_out old_writes fold_left].
  - now rewrite app_nil_r.
  - change (2 ^ 8) with 256 in H1. unfold old_packet at 1. rewrite usizec_small by (assumption || lia). cbn [bind].
    pose proof (zlen_nonneg (pk_colors p)).
    unfold usizec at 1. rewrite checked_ok.
    2: { split; [lia|]. apply wide_sum; lia. }
    cbn [bind].
    destruct (Z.ltb_spec 256 (a + pk_entries_to_skip p + zlen (pk_colors p))) as [Hlt|Hle]; [reflexivity|].
    rewrite old_colors_loop by (assumption || lia). cbv zeta. cbn [bind]. rewrite IH by lia.
    destruct (old_writes _ ps) as [new|]; [|reflexivity]. now rewrite <- app_assoc.
Qed.

Lemma wide_chunks_loop chs : Forall (fun ch => Forall wide_packet (op_packets ch)) chs -> forall ws,
  fold_out (fun '(p, ok) ch =>
      let* (p, _, ok) := fold_out (old_packet c) (op_packets ch) (p, 0, ok) in
      Ok (p, ok)) chs (painted ws, nonempty ws) =
  match old_writes_all chs with
  | Some new => Ok (painted (ws ++ new), nonempty (ws ++ new))
  | None => Err PIndexOOB
  end.
Proof.
  induction 1 as [|ch chs H1 H IH]; intro ws; cbn [fold_out old_writes_all].
  - now rewrite app_nil_r.
  - rewrite wide_packets_loop by (assumption || lia). destruct (old_writes 0 (op_packets ch)) as [a|]; [|reflexivity].
    cbn [bind]. rewrite IH. destruct (old_writes_all chs); [|reflexivity]. now rewrite <- app_assoc.
Qed.

Lemma wide_new_loop chs : Forall (fun p => 0 <= pc_first p < 2 ^ 8 /\ 0 <= pc_last p < 2 ^ 8) chs -> forall ws,
  fold_out (fun st ch => fold_out new_step (combine (pc_entries ch) (range_incl (pc_first ch) (pc_last ch))) st)
      chs (painted ws, nonempty ws) =
  let ws' := ws ++ flat_map new_writes chs in Ok (painted ws', nonempty ws').
Proof.
  induction 1 as [|p chs [H1 H2] H IH]; intro ws; cbv zeta; cbn [fold_out flat_map].
  - now rewrite app_nil_r.
  - rewrite new_chunk_loop by lia. cbv zeta. cbn [bind]. fold (new_writes p).
    rewrite IH. cbv zeta. now rewrite <- app_assoc.
Qed.

Lemma wide_palette h fs : 0 <= h_transparent_index h < 2 ^ 8 -> Forall (typed_palette c) (all_chunks fs) ->
  create_palette c h fs = sum_out (spec_palette (h_transparent_index h) fs).
Proof.
  intros Hi H. change (2 ^ 8) with 256 in Hi. unfold create_palette, spec_palette, spec_writes.
  replace (palette_chunks fs) with (new_palettes fs) by apply flat_map_flat_map.
  replace (palette0004_chunks fs) with (palettes_0004 fs) by apply flat_map_flat_map.
  replace (palette0011_chunks fs) with (palettes_0011 fs) by apply flat_map_flat_map.
  assert (H1 : Forall (fun p => 0 <= pc_first p < 2 ^ 8 /\ 0 <= pc_last p < 2 ^ 8) (new_palettes fs)).
  { eapply Forall_flat_map_of; [exact H|]. intros []; cbn; auto. }
  assert (H2 : Forall (fun ch => Forall wide_packet (op_packets ch)) (palettes_0004 fs)).
  { eapply Forall_flat_map_of; [exact H|]. intros []; cbn; auto. }
  assert (H3 : Forall (fun ch => Forall wide_packet (op_packets ch)) (palettes_0011 fs)).
  { eapply Forall_flat_map_of; [exact H|]. intros []; cbn; auto. }
  assert (Old : forall chs, Forall (fun ch => Forall wide_packet (op_packets ch)) chs ->
    process_old_palette_chunks c (h_transparent_index h) chs palette_default =
    match old_writes_all chs with Some ws => result (h_transparent_index h) ws | None => Err PIndexOOB end).
  { intros chs HF. unfold process_old_palette_chunks. rewrite painted_default.
    change false with (nonempty (@nil (Z * color))).
    rewrite wide_chunks_loop by assumption. destruct (old_writes_all chs); [|reflexivity].
    cbn [app bind]. now apply finish. }
  destruct (new_palettes fs) as [|p ps].
  - destruct (palettes_0004 fs) as [|q qs]; [destruct (palettes_0011 fs) as [|q qs]; [reflexivity|]|].
    all: rewrite Old by assumption; destruct (old_writes_all _) as [[|w ws]|]; reflexivity.
  - unfold process_palette_chunks. rewrite painted_default.
    change false with (nonempty (@nil (Z * color))).
    change (fun st ch => fold_out _ (combine (pc_entries ch) (range_incl (pc_first ch) (pc_last ch))) st)
      with (fun st ch => fold_out new_step (combine (pc_entries ch) (range_incl (pc_first ch) (pc_last ch))) st).
    rewrite wide_new_loop by exact H1. cbv zeta. cbn [app bind]. rewrite finish by exact Hi.
    destruct (flat_map new_writes _); reflexivity.
Qed.
End Palette.

Lemma spec_palette_cases i fs : match spec_palette i fs with
  | inl p => exists ws, spec_writes fs = inl ws /\ ws <> [] /\ p = map (spec_color i ws) (zrange 256)
  | inr e => (spec_writes fs = inl [] /\ e = PEmpty) \/ spec_writes fs = inr e
  end.
Proof.
  unfold spec_palette. destruct (spec_writes fs) as [[|w ws]|e].
  - left. auto.
  - exists (w :: ws). split; [reflexivity|]. split; [discriminate|reflexivity].
  - right. reflexivity.
Qed.

Lemma any_palette c h fs : cfg_ok c -> 0 <= h_transparent_index h < 2 ^ 8 -> Forall (typed_palette c) (all_chunks fs) ->
  (forall p, create_palette c h fs = Ok p <->
     exists ws, spec_writes fs = inl ws /\ ws <> [] /\ zlen p = 256 /\
       forall k, 0 <= k < 256 -> nth_error p (Z.to_nat k) = Some (spec_color (h_transparent_index h) ws k)) /\
  (forall e, create_palette c h fs = Err e <->
     (spec_writes fs = inl [] /\ e = PEmpty) \/ spec_writes fs = inr e) /\
  forall q, create_palette c h fs <> Panic q.
Proof.
  intros Hc Hi H. rewrite (wide_palette c Hc h fs Hi H).
  pose proof (spec_palette_cases (h_transparent_index h) fs) as S.
  destruct (spec_palette (h_transparent_index h) fs) as [p0|e0]; cbn [sum_out].
  - destruct S as (ws & E & N & P). refine (conj _ (conj _ _)).
    + intro p. split.
      * intros [= <-]. exists ws. split; [exact E|]. split; [exact N|]. subst p0. split; [apply zlen_256|].
        intros k Hk. rewrite nth_256 by lia. now rewrite Z2Nat.id by lia.
      * intros (ws' & E' & _ & L & K). rewrite E in E'. injection E' as <-. f_equal. subst p0.
        unfold zlen in L. apply list_ext.
        -- rewrite map_length, zrange_length. lia.
        -- intros k Hk. rewrite map_length, zrange_length in Hk. change (Z.to_nat 256) with 256%nat in Hk.
           rewrite nth_256 by exact Hk. symmetry. rewrite <- (K (Z.of_nat k)) by lia. now rewrite Nat2Z.id.
    + intro e. split; [discriminate|]. intros [[E' _]|E']; congruence.
    + discriminate.
  - refine (conj _ (conj _ _)).
    + intro p. split; [discriminate|]. intros (ws & E & N & _). destruct S as [[E' _]|E']; congruence.
    + intro e. split.
      * intros [= <-]. exact S.
      * intros [[E ->]|E]; destruct S as [[E' ->]|E']; rewrite E in E'; try discriminate; [reflexivity|]. now injection E' as <-.
    + discriminate.
Qed.

(** ** Frames and colour depths *)
Lemma cels_of_frame f :
  map ChCel (raw_frame_cels f) = filter (fun x => match x with ChCel _ => true | _ => false end) (rf_chunks f).
Proof.
  unfold raw_frame_cels. induction (rf_chunks f) as [|x l IH]; [reflexivity|].
  destruct x; cbn; rewrite ?IH; reflexivity.
Qed.

Lemma depth_sizes :
  (forall d n, pixel_size d = Some n -> bpp d = 8 * n) /\
  (forall b, bpp (color_depth_from b) = b) /\
  (forall b, pixel_size (color_depth_from b) = None <-> b <> 8 /\ b <> 16 /\ b <> 32).
Proof.
  refine (conj _ (conj _ _)).
  - intros [] n; cbn; intros [= <-]; reflexivity.
  - intro b. destruct (color_depth_from b) eqn:E; cbn; unfold color_depth_from in E;
      destruct b as [|b|b]; try discriminate; try congruence;
      repeat (destruct b as [b|b|]; try discriminate; try congruence; try reflexivity).
  - intro b. split.
    + intro H. refine (conj _ (conj _ _)); intros ->; discriminate.
    + intros (H8 & H16 & H32). unfold color_depth_from. destruct b as [|b|b]; try reflexivity.
      repeat (destruct b as [b|b|]; try reflexivity; try congruence).
Qed.

(** ** The readme *)
Lemma zeros_bytes n : is_bytes (repeat 0 n).
Proof. apply Forall_forall. intros x Hx. apply repeat_spec in Hx. subst x. unfold is_byte. lia. Qed.

Lemma zeros_pixel W H x y : 0 <= x < W -> 0 <= y < H ->
  pixel W (repeat 0 (Z.to_nat (W * H * 4))) x y = Some (mkpx 0 0 0 0).
Proof.
  intros Hx Hy. set (t := repeat 0 (Z.to_nat (W * H * 4))).
  assert (P : pixel W t x y = Some (at_px t (Z.to_nat (y * W + x)))).
  { apply (pixel_at_px W H); auto. unfold t, zlen. rewrite repeat_length. nia. }
  unfold pixel in P |- *. destruct (quad_zero (Z.to_nat (W * H * 4)) (Z.to_nat (y * W + x))) as [E|E]; unfold t in *; rewrite E in *.
  - reflexivity.
  - discriminate.
Qed.

Section Usage.
Context (c : cfg) (i : bytes) (s : ase_file) (Hc : cfg_ok c) (Hi : is_bytes i) (Ha : addressable c i) (Hl : load c i = Ok s).
Context (inflate : inflater) (Hinf : inflate_ok inflate) (Hfit : sprite_fits c s) (Halloc : canvas_size s < 2 ^ (usize_bits c - 1)).

Let zeros := repeat 0 (Z.to_nat (canvas_size s)).

Lemma usage_render : usage c inflate i =
  match render_frame c inflate s 0 zeros SelVisible with
  | Ok rgba => Ok rgba | Err (e, _) => Err (UsageRender e) | Panic p => Panic p
  end.
Proof.
  unfold usage. rewrite Hl. unfold api_size. destruct (canvas_facts c i s Hc Hi Ha Hl) as [HW HH]. destruct Hfit as [HC _].
  unfold canvas_size, canvas_width, canvas_height in *.
  unfold usizec. rewrite checked_ok by nia. cbn [bind]. rewrite checked_ok by nia. cbn [bind].
  unfold vec_zeroed. replace (_ <? _) with true by (symmetry; apply Z.ltb_lt; exact Halloc). reflexivity.
Qed.

Lemma first_frame : exists sf, nth_error (api_frames s) 0 = Some sf.
Proof.
  destruct (frames_counted c i s Hc Hi Ha Hl) as (raw & (e1 & e2 & _ & N & _) & L & _).
  destruct (api_frames s) as [|sf l]; [|now exists sf].
  destruct (rw_frames raw); [congruence|]. unfold zlen in L. cbn in L. lia.
Qed.

Lemma usage_outcomes : exists sf, nth_error (api_frames s) 0 = Some sf /\
  (forall e, usage c inflate i <> Err e) /\
  (forall r, usage c inflate i = Ok r <->
     zlen r = canvas_size s /\
     (forall cel l, In cel (sf_cels sf) -> drawn s SelVisible cel = Some l ->
        (exists image, cel_image inflate s cel image) /\ known_mode (ly_blend_mode l)) /\
     forall x y, 0 <= x < canvas_width s -> 0 <= y < canvas_height s ->
       exists p, pixel (canvas_width s) r x y = Some p /\
         composed c inflate s SelVisible x y (sf_cels sf) (mkpx 0 0 0 0) p) /\
  (forall q, usage c inflate i = Panic q <->
     exists before cel after l, sf_cels sf = before ++ cel :: after /\ drawn s SelVisible cel = Some l /\
       can_draw c inflate s SelVisible before (repeat 0 (Z.to_nat (canvas_size s))) /\
       hindered c inflate s SelVisible (repeat 0 (Z.to_nat (canvas_size s))) before cel l q).
Proof.
  destruct first_frame as [sf Hsf]. exists sf. split; [exact Hsf|]. rewrite usage_render.
  destruct (canvas_facts c i s Hc Hi Ha Hl) as [HW HH].
  assert (Hz : zlen zeros = canvas_size s).
  { unfold zeros, zlen. rewrite repeat_length. unfold canvas_size. nia. }
  pose proof (zeros_bytes (Z.to_nat (canvas_size s))) as Hb. fold zeros in Hb |- *.
  pose proof (render_buffer c i s Hc Hi Ha Hl inflate Hinf Hfit SelVisible 0%nat sf zeros Hsf Hb ltac:(lia)) as B.
  pose proof (render_exactly c i s Hc Hi Ha Hl inflate Hinf Hfit SelVisible 0%nat sf zeros) as X.
  pose proof (frame_refused c i s Hc Hi Ha Hl inflate Hinf Hfit SelVisible 0%nat sf zeros Hsf Hb) as R.
  change (Z.of_nat 0) with 0 in *.
  assert (Zp : forall x y, 0 <= x < canvas_width s -> 0 <= y < canvas_height s ->
    pixel (canvas_width s) zeros x y = Some (mkpx 0 0 0 0)).
  { intros x y Hx Hy. apply (zeros_pixel (canvas_width s) (canvas_height s)); assumption. }
  refine (conj _ (conj _ _)).
  - intros e. destruct (render_frame c inflate s 0 zeros SelVisible) as [r|[]|q]; [discriminate|contradiction|discriminate].
  - intro r. specialize (X r Hsf Hb).
    transitivity (render_frame c inflate s 0 zeros SelVisible = Ok r).
    { destruct (render_frame c inflate s 0 zeros SelVisible) as [r'|[]|q]; [|contradiction|]; split; intro E; try discriminate; congruence. }
    rewrite X. split.
    + intros (_ & L & _ & D & P). split; [lia|]. split; [exact D|]. intros x y Hx Hy.
      destruct (P x y Hx Hy) as (back & p & E & Ep & C). rewrite (Zp x y Hx Hy) in E. injection E as <-. exists p. auto.
    + intros (L & D & P). split; [lia|]. split; [lia|]. split.
      * rewrite !skipn_all2; [reflexivity| |]; unfold zlen in *; lia.
      * split; [exact D|]. intros x y Hx Hy. destruct (P x y Hx Hy) as (p & Ep & C). exists (mkpx 0 0 0 0), p. auto.
  - intro q. specialize (R q).
    transitivity (render_frame c inflate s 0 zeros SelVisible = Panic q).
    { destruct (render_frame c inflate s 0 zeros SelVisible) as [r'|[]|q']; [|contradiction|]; split; intro E; try discriminate; congruence. }
    rewrite R. split; [intros (_ & E); exact E|intro E; split; [lia|exact E]].
Qed.
End Usage.

Lemma usage_not_loaded c inflate i : (forall e, load c i = Err e -> usage c inflate i = Err (UsageLoad e)) /\
  (forall q, load c i = Panic q -> usage c inflate i = Panic q).
Proof. unfold usage. split; intros x E; rewrite E; reflexivity. Qed.

Lemma usage_too_large c i s : cfg_ok c -> is_bytes i -> addressable c i -> load c i = Ok s -> forall inflate,
  (2 ^ (usize_bits c - 1) <= canvas_size s < 2 ^ usize_bits c -> usage c inflate i = Panic PCapacity) /\
  (2 ^ usize_bits c <= canvas_size s -> debug c = true -> usage c inflate i = Panic POverflow).
Proof.
  intros Hc Hi Ha Hl inflate. unfold usage. rewrite Hl. unfold api_size. destruct (canvas_facts c i s Hc Hi Ha Hl) as [HW HH].
  destruct (usize_pow c Hc) as [P _]. change (2 ^ 32) with 4294967296 in P.
  unfold canvas_size, canvas_width, canvas_height in *. split.
  - intro H. unfold usizec. rewrite checked_ok by nia. cbn [bind]. rewrite checked_ok by nia. cbn [bind].
    unfold vec_zeroed. replace (_ <? _) with false by (symmetry; apply Z.ltb_ge; lia). reflexivity.
  - intros H D. unfold usizec. rewrite checked_ok by nia. cbn [bind]. unfold checked.
    rewrite D. match goal with |- context [if ?b then _ else _] => replace b with false by lia end. reflexivity.
Qed.
