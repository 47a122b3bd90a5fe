(** Merged layers (C123). *)
From Coq Require Import Sorting.Sorted.
From Verif.Model Require Import Loader.
From Verif.Spec Require Import Bytes ImageSpec BlendSpec RenderSpec Refusals Made Convert Trimmed Kept Merged.
From Verif.Proofs Require Import BlendFacts BlendProps ImageFacts RenderFacts RenderProps CanvasProps SplitProps MadeProps UnpackProps TurnProps SimProps KeptProps UsageProps BakeProps.

Section Merge.
Context (c : cfg) (inflate : inflater).
Hypothesis Hc : cfg_ok c.
Hypothesis Hinf : inflate_ok inflate.

Lemma frame_draws u k sf t sel : 0 <= canvas_width u -> 0 <= canvas_height u -> canvas_size u < 2 ^ usize_bits c ->
  nth_error (api_frames u) k = Some sf ->
  render_frame c inflate u (Z.of_nat k) t sel =
  if zlen t <? canvas_size u then Err (TargetBufferTooSmall, t) else fold_out (draw_one c inflate (af_file u)) (drawings u sel (sf_cels sf)) t.
Proof.
  intros HW HH HC Hk. unfold render_frame, canvas_size, canvas_width, canvas_height in *.
  rewrite usizec_id by nia. cbn [bind]. rewrite usizec_id by nia. cbn [bind].
  destruct (_ <? _); [reflexivity|]. unfold get_index. replace (0 <=? Z.of_nat k) with true by lia.
  unfold api_frames in Hk. rewrite Nat2Z.id, Hk. cbn [bind]. apply draws.
Qed.

Definition base_drawing (s : ase_file) (r : bytes) : drawing :=
  {| dr_image := Some (picture s r); dr_origin := (0, 0); dr_size := canvas s; dr_mode := BNormal; dr_opacity := 255 |}.

Section One.
Context (s : ase_file) (r : bytes).
Hypothesis Hty : typed c s.
Hypothesis Hd : h_color_depth (f_header (af_file s)) = Rgba.
Hypothesis Hsize : canvas_size s * 4 < 2 ^ usize_bits c.
Hypothesis Hr : is_bytes r.
Hypothesis Hlen : zlen r = canvas_size s.

Let one : ase_file :=
  {| af_file := af_file s; af_layers := [base_layer];
     af_frames := [{| sf_duration := 0; sf_origin := (0, 0); sf_cels := [base_cel s 0] |}]; af_tags := []; af_images := [picture s r] |}.

Lemma canvas_bounds : 0 <= canvas_width s < 2 ^ 16 /\ 0 <= canvas_height s < 2 ^ 16 /\ 0 <= canvas_size s.
Proof. destruct Hty as (HW & HH & _). repeat split; try lia. unfold canvas_size. nia. Qed.
Lemma half : canvas_size s < 2 ^ (usize_bits c - 1).
Proof. destruct canvas_bounds as (_ & _ & H). destruct (usize_pos c Hc) as [_ E]. lia. Qed.

Lemma one_typed : typed c one.
Proof.
  destruct canvas_bounds as (HW & HH & H0). pose proof half. pose proof (usize_pos c Hc) as [P E].
  destruct Hty as (_ & _ & Hp & _). split; [exact HW|]. split; [exact HH|]. split; [exact Hp|].
  split; [|split].
  - constructor; [|constructor]. split; [exact HW|]. split; [exact HH|]. split; [exact Hr|]. unfold addressable. cbn. lia.
  - constructor; [|constructor]. cbn. unfold is_byte. lia.
  - constructor; [|constructor]. constructor; [|constructor]. unfold typed_cel. cbn [fc_origin fc_size fc_layer_index fc_image_index base_cel canvas fst snd].
    repeat split; try lia.
Qed.
Lemma one_fits : made_fits c one.
Proof.
  destruct canvas_bounds as (HW & HH & H0). pose proof half. pose proof (usize_pos c Hc) as [P E].
  split; [change (canvas_size s < 2 ^ usize_bits c); lia|]. split.
  - constructor; [|constructor]. unfold sizes_fit, rgba_size. cbn [picture im_width im_height im_data]. fold (canvas_size s). rewrite Hlen. lia.
  - constructor; [|constructor]. constructor; [|constructor]. unfold room. cbn [base_cel fc_size canvas fst snd]. fold (canvas_size s). assumption.
Qed.
Lemma one_drawn sel : sel = SelVisible -> drawings one sel [base_cel s 0] = [base_drawing s r].
Proof. intros ->. reflexivity. Qed.

Lemma pixel_some x y : 0 <= x < canvas_width s -> 0 <= y < canvas_height s ->
  exists p, pixel (canvas_width s) r x y = Some p /\ is_px p.
Proof.
  intros Hx Hy. destruct canvas_bounds as (HW & HH & H0).
  pose proof (plain_view inflate one (base_cel s 0) (picture s r) Hd eq_refl (conj eq_refl Hlen) eq_refl) as V.
  assert (Hv : cel_view inflate one (base_cel s 0) r) by now apply V.
  assert (Hf : fine c (base_cel s 0)).
  { pose proof (frames_fine c one one_typed one_fits 0%nat _ eq_refl) as F. now inversion F. }
  destruct (view_front c one inflate (base_cel s 0) r x y Hc one_typed Hinf one_fits Hf Hv) as (p & E & P).
  - unfold covers. cbn [base_cel fc_origin fc_size canvas]. lia.
  - exists p. split; [|exact P]. cbn [base_cel fc_origin fc_size canvas fst snd] in E. now rewrite !Z.sub_0_r in E.
Qed.

Lemma base_drawn : draw_one c inflate (af_file s) (blank s) (base_drawing s r) = Ok r.
Proof.
  destruct canvas_bounds as (HW & HH & H0).
  assert (R : render_frame c inflate one (Z.of_nat 0) (blank s) SelVisible = Ok r).
  { assert (Hbl : is_bytes (blank s)) by (unfold blank; apply Forall_forall; intros z Hz; apply repeat_spec in Hz; subst; unfold is_byte; lia).
    assert (Lb : zlen (blank s) = canvas_size s) by (unfold blank, zlen; rewrite repeat_length; lia).
    apply (made_exactly c one Hc one_typed one_fits inflate Hinf SelVisible 0 _ (blank s) r eq_refl Hbl).
    change (canvas_size one) with (canvas_size s). change (canvas_width one) with (canvas_width s). change (canvas_height one) with (canvas_height s).
    pose proof (plain_view inflate one (base_cel s 0) (picture s r) Hd eq_refl (conj eq_refl Hlen) eq_refl) as V.
    assert (Hv : cel_view inflate one (base_cel s 0) r) by now apply V.
    split; [lia|]. split; [lia|]. split.
    { rewrite !skipn_all2; [reflexivity| |]; unfold zlen in *; lia. }
    split.
    - intros cel l [<-|[]] D. injection D as <-. split; [eauto|]. left. exact I.
    - intros x y Hx Hy. destruct (pixel_some x y Hx Hy) as (p & Ep & Pp). exists (mkpx 0 0 0 0), p.
      split; [unfold blank, canvas_size; now apply zeros_pixel|]. split; [exact Ep|].
      eapply (stacked_draw _ _ _ _ _ _ (base_cel s 0) [] _ base_layer r p (normal c)); [reflexivity| |exact Hv| |reflexivity| |constructor].
      + unfold covers. cbn [base_cel fc_origin fc_size canvas]. lia.
      + cbn [base_cel fc_origin fc_size canvas fst snd]. now rewrite !Z.sub_0_r.
      + rewrite normal_eq; [|unfold is_px, is_byte; cbn; lia|exact Pp|unfold is_byte; cbn; lia].
        unfold normal_px. change (pa (mkpx 0 0 0 0) =? 0) with true. cbv iota. f_equal. destruct p as [a b d e]. cbn [pr pg pb pa base_layer ly_opacity].
        destruct Pp as (_ & _ & _ & Pe). cbn [pa] in Pe. unfold is_byte in Pe. now rewrite div255_whole. }
  rewrite (frame_draws one 0 {| sf_duration := 0; sf_origin := (0, 0); sf_cels := [base_cel s 0] |} (blank s) SelVisible (proj1 HW) (proj1 HH)) in R; [|change (canvas_size s < 2 ^ usize_bits c); lia|reflexivity].
  change (canvas_size one) with (canvas_size s) in R.
  assert (Lb : zlen (blank s) = canvas_size s) by (unfold blank, zlen; rewrite repeat_length; lia).
  rewrite Lb, Z.ltb_irrefl in R. cbn [sf_cels] in R. rewrite one_drawn in R by reflexivity. cbn [fold_out] in R.
  destruct (draw_one _ _ _ _ _); cbn [bind] in R; [exact R|discriminate R..].
Qed.
End One.

Lemma nth_error_from {A} n (l : list A) k : nth_error (skipn n l) k = nth_error l (n + k).
Proof. revert l. induction n as [|n IH]; intros [|x l]; cbn; try reflexivity; [now destruct k|apply IH]. Qed.

Lemma merged_frames_nth n s : forall frames j k sf, nth_error frames k = Some sf ->
  nth_error (merged_frames n s j frames) k =
  Some {| sf_duration := sf_duration sf; sf_origin := sf_origin sf; sf_cels := base_cel s (j + Z.of_nat k) :: upper_cels n (sf_cels sf) |}.
Proof.
  induction frames as [|f frames IH]; intros j k sf E; [destruct k; discriminate E|]. destruct k as [|k].
  - injection E as ->. cbn [merged_frames nth_error]. now rewrite Z.add_0_r.
  - cbn [merged_frames nth_error]. rewrite (IH (j + 1) k sf E). now replace (j + Z.of_nat (S k)) with (j + 1 + Z.of_nat k) by lia.
Qed.
Lemma merged_frames_length n s : forall frames j, length (merged_frames n s j frames) = length frames.
Proof. induction frames; intro j; cbn; [reflexivity|]. now rewrite IHframes. Qed.

Lemma order_split (n : Z) cels : StronglySorted (fun a b => fc_layer_index a <= fc_layer_index b) cels ->
  exists lo hi, cels = lo ++ hi /\ Forall (fun cel => fc_layer_index cel < n) lo /\ Forall (fun cel => n <= fc_layer_index cel) hi.
Proof.
  induction 1 as [|cel cels Hs IH Hall]; [exists [], []; repeat split; constructor|].
  destruct (Z.lt_ge_cases (fc_layer_index cel) n) as [H|H].
  - destruct IH as (lo & hi & E & Hlo & Hhi). exists (cel :: lo), hi. rewrite E. repeat split; auto.
  - exists [], (cel :: cels). repeat split; [constructor|]. constructor; [exact H|].
    eapply Forall_impl; [|exact Hall]. intros x Hx. cbv beta in *. lia.
Qed.

Lemma upper_split n lo hi : Forall (fun cel => fc_layer_index cel < n) lo -> Forall (fun cel => n <= fc_layer_index cel) hi ->
  upper_cels n (lo ++ hi) = map (renumbered n) hi.
Proof.
  intros Hlo Hhi. unfold upper_cels. f_equal. induction Hlo as [|a lo Ha Hlo IH]; cbn [app filter].
  - induction Hhi as [|b hi Hb Hhi IH]; cbn [filter]; [reflexivity|]. replace (n <=? fc_layer_index b) with true by lia. now rewrite IH.
  - replace (n <=? fc_layer_index a) with false by lia. exact IH.
Qed.

Section Whole.
Context (s : ase_file) (n : Z) (sel below : layer_selection).
Hypothesis Hn : 0 <= n.
Hypothesis HB : lower_selection s n sel below.

Lemma below_drawn cel : 0 <= fc_layer_index cel ->
  drawn s below cel = if fc_layer_index cel <? n then drawn s sel cel else None.
Proof.
  intro H0. unfold drawn. destruct (nth_error (af_layers s) (Z.to_nat (fc_layer_index cel))) as [l|] eqn:E.
  2: now destruct (_ <? _).
  pose proof (HB _ l E) as H. rewrite Z2Nat.id in H by exact H0. rewrite H.
  destruct (ly_layer_type l), (fc_layer_index cel <? n); reflexivity.
Qed.
Lemma below_drawings lo hi : Forall (fun cel => 0 <= fc_layer_index cel) (lo ++ hi) ->
  Forall (fun cel => fc_layer_index cel < n) lo -> Forall (fun cel => n <= fc_layer_index cel) hi ->
  drawings s below (lo ++ hi) = drawings s sel lo.
Proof.
  intros H0 Hlo Hhi. apply Forall_app in H0 as [H0 H1]. unfold drawings. rewrite flat_map_app.
  replace (flat_map _ hi) with (@nil drawing).
  - rewrite app_nil_r. induction Hlo as [|a lo Ha Hlo IH]; cbn [flat_map]; [reflexivity|]. inversion H0; subst.
    rewrite below_drawn by assumption. replace (fc_layer_index a <? n) with true by lia. now rewrite IH.
  - induction Hhi as [|a hi Ha Hhi IH]; cbn [flat_map]; [reflexivity|]. inversion H1; subst.
    rewrite below_drawn by assumption. replace (fc_layer_index a <? n) with false by lia. now apply IH.
Qed.
Lemma upper_drawings pics hi : Forall (fun cel => n <= fc_layer_index cel) hi ->
  (forall cel, In cel hi -> fc_image_index cel < zlen (af_images s)) ->
  drawings (merged n s pics) (merged_selection n sel) (map (renumbered n) hi) = drawings s sel hi.
Proof.
  induction 1 as [|cel hi Hc0 Hhi IH]; intros Him; [reflexivity|]. unfold drawings in *. cbn [map flat_map].
  rewrite IH by (intros; apply Him; now right). f_equal.
  assert (ED : drawn (merged n s pics) (merged_selection n sel) (renumbered n cel) = drawn s sel cel).
  { unfold drawn. cbn [merged af_layers renumbered fc_layer_index].
    replace (Z.to_nat (fc_layer_index cel - n + 1)) with (S (Z.to_nat (fc_layer_index cel) - Z.to_nat n)) by lia. cbn [nth_error].
    rewrite nth_error_from. replace (Z.to_nat n + _)%nat with (Z.to_nat (fc_layer_index cel)) by lia.
    destruct (nth_error (af_layers s) _) as [l|]; [|reflexivity].
    assert (EC : chosen (merged_selection n sel) (fc_layer_index cel - n + 1) l = chosen sel (fc_layer_index cel) l).
    { destruct sel as [| |mask]; try reflexivity. cbn [merged_selection chosen].
      replace (Z.to_nat (fc_layer_index cel - n + 1)) with (S (Z.to_nat (fc_layer_index cel) - Z.to_nat n)) by lia. cbn [nth_error].
      rewrite nth_error_from. now replace (Z.to_nat n + _)%nat with (Z.to_nat (fc_layer_index cel)) by lia. }
    rewrite EC. reflexivity. }
  rewrite ED. destruct (drawn s sel cel); [|reflexivity]. cbn [renumbered fc_origin fc_size]. f_equal. f_equal.
  unfold image_of. cbn [renumbered fc_image_index merged af_images]. destruct (Z.ltb_spec (fc_image_index cel) 0); [reflexivity|].
  apply nth_error_app1. specialize (Him cel (or_introl eq_refl)). unfold zlen in Him. lia.
Qed.

Lemma merged_drawn pics k r cels : nth_error pics k = Some r ->
  drawings (merged n s pics) (merged_selection n sel) (base_cel s (zlen (af_images s) + Z.of_nat k) :: cels) =
  base_drawing s r :: drawings (merged n s pics) (merged_selection n sel) cels.
Proof.
  intro E. unfold drawings. cbn [flat_map]. change (?a :: ?b) with ([a] ++ b) at 2. f_equal.
  assert (ED : drawn (merged n s pics) (merged_selection n sel) (base_cel s (zlen (af_images s) + Z.of_nat k)) = Some base_layer)
    by (unfold drawn; cbn; now destruct sel).
  rewrite ED. unfold base_drawing. cbn [base_cel fc_origin fc_size base_layer ly_blend_mode ly_opacity]. f_equal. f_equal.
  unfold image_of. cbn [base_cel fc_image_index merged af_images]. unfold zlen.
  replace (_ <? 0) with false by lia. rewrite nth_error_app2 by lia.
  replace (_ - _)%nat with k by lia. now rewrite (map_nth_error (picture s) _ _ E).
Qed.

Lemma merged_frame pics k sf : typed c s -> made_fits c s -> h_color_depth (f_header (af_file s)) = Rgba ->
  canvas_size s * 4 < 2 ^ usize_bits c -> in_order s ->
  nth_error (api_frames s) k = Some sf ->
  (exists r, nth_error pics k = Some r /\ render_frame c inflate s (Z.of_nat k) (blank s) below = Ok r) ->
  render_frame c inflate (merged n s pics) (Z.of_nat k) (blank s) (merged_selection n sel) =
  render_frame c inflate s (Z.of_nat k) (blank s) sel.
Proof.
  intros Hty Hfit Hd Hsize Hord Hk (r & Er & R).
  pose proof Hty as (HW & HH & _). destruct Hfit as [HC Hfit']. assert (Hfit : made_fits c s) by (split; assumption).
  assert (Lb : zlen (blank s) = canvas_size s) by (unfold blank, zlen; rewrite repeat_length; unfold canvas_size; nia).
  assert (Bb : is_bytes (blank s)) by apply zeros_bytes.
  assert (Br : is_bytes r /\ zlen r = canvas_size s).
  { pose proof R as R'. rewrite (made_frame_eq c s Hty inflate Hfit below k sf _ Hk), Lb, Z.ltb_irrefl in R'.
    pose proof (made_cels_outcome c s Hc Hty inflate Hinf Hfit below (sf_cels sf) (frames_fine c s Hty Hfit k sf Hk) (blank s) Bb ltac:(lia)) as G.
    rewrite R' in G. destruct G as (G1 & G2 & _). split; [exact G2|lia]. }
  destruct Br as [Br Lr].
  pose proof (nth_error_In _ _ Hk) as Hin. destruct (Hord sf Hin) as [Hs Him].
  destruct (order_split n _ Hs) as (lo & hi & E & Hlo & Hhi).
  assert (H0 : Forall (fun cel => 0 <= fc_layer_index cel) (lo ++ hi)).
  { rewrite <- E. destruct Hty as (_ & _ & _ & _ & _ & Ht). rewrite Forall_forall in Ht. eapply Forall_impl; [|exact (Ht sf Hin)].
    intros cel (_ & _ & _ & _ & Hx & _). lia. }
  rewrite (frame_draws s k sf _ below (proj1 HW) (proj1 HH) HC Hk), Lb, Z.ltb_irrefl, E, (below_drawings lo hi H0 Hlo Hhi) in R.
  rewrite (frame_draws s k sf _ sel (proj1 HW) (proj1 HH) HC Hk), Lb, Z.ltb_irrefl, E.
  assert (EA : drawings s sel (lo ++ hi) = drawings s sel lo ++ drawings s sel hi) by apply flat_map_app.
  rewrite EA, fold_out_app, R. cbn [bind].
  rewrite (frame_draws (merged n s pics) k _ _ _ (proj1 HW) (proj1 HH) HC (merged_frames_nth n s (af_frames s) (zlen (af_images s)) k sf Hk)).
  change (canvas_size (merged n s pics)) with (canvas_size s). rewrite Lb, Z.ltb_irrefl. cbn [sf_cels].
  rewrite (merged_drawn pics k r _ Er), E, (upper_split n lo hi Hlo Hhi), upper_drawings; [|exact Hhi|].
  - cbn [fold_out]. change (af_file (merged n s pics)) with (af_file s).
    rewrite (base_drawn s r Hty Hd Hsize Br Lr). reflexivity.
  - intros cel Hcel. apply Him. rewrite E. apply in_or_app. now right.
Qed.
End Whole.
End Merge.

Lemma merged_sprite c inflate : cfg_ok c -> inflate_ok inflate ->
  forall s, typed c s -> made_fits c s -> h_color_depth (f_header (af_file s)) = Rgba ->
  canvas_size s * 4 < 2 ^ usize_bits c -> in_order s ->
  forall n sel below, 0 <= n -> lower_selection s n sel below ->
  forall pictures, (forall k, (k < length (api_frames s))%nat ->
    exists r, nth_error pictures k = Some r /\ render_frame c inflate s (Z.of_nat k) (blank s) below = Ok r) ->
  forall k, render_frame c inflate (merged n s pictures) (Z.of_nat k) (blank s) (merged_selection n sel) =
    render_frame c inflate s (Z.of_nat k) (blank s) sel.
Proof.
  intros Hc Hinf s Hty Hfit Hd Hsize Hord n sel below Hn HB pics HP k.
  destruct (nth_error (api_frames s) k) as [sf|] eqn:Hk.
  - eapply merged_frame; try eassumption. apply HP. apply nth_error_Some. congruence.
  - unfold render_frame. cbn [merged af_file af_frames]. unfold get_index. rewrite Nat2Z.id. unfold api_frames in Hk. rewrite Hk.
    assert (E : nth_error (merged_frames n s (zlen (af_images s)) (af_frames s)) k = None)
      by (apply nth_error_None; rewrite merged_frames_length; now apply nth_error_None).
    rewrite E. now destruct (0 <=? Z.of_nat k).
Qed.

Lemma loaded_in_order c i s : cfg_ok c -> is_bytes i -> addressable c i -> load c i = Ok s -> in_order s.
Proof.
  intros Hc Hi Ha Hl sf Hin. apply In_nth_error in Hin as [k Hk]. split.
  - pose proof (frame_sorted c i s k sf Hc Hi Ha Hl Hk) as H. induction H as [|a l H IH F]; constructor; [exact IH|].
    eapply Forall_impl; [|exact F]. unfold below_of. intros; lia.
  - intros cel Hcel. pose proof (frame_cels_ok c i s Hc Hi Ha Hl k sf Hk) as H. rewrite Forall_forall in H.
    destruct (H cel Hcel) as (H0 & im & E & _). assert (Z.to_nat (fc_image_index cel) < length (af_images s))%nat by (apply nth_error_Some; congruence).
    unfold zlen. lia.
Qed.
