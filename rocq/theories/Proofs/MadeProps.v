(** [load_image] and [render_frame] on sprites that need not come from [load]. *)
From Verif.Model Require Import Loader.
From Verif.Spec Require Import Bytes ImageSpec BlendSpec RenderSpec Refusals Slices Made.
From Verif.Proofs Require Import ParseLib LoaderFacts SlicesFacts LoaderProps FileFinal BinaryFinal BlendFacts BlendProps ImageFacts ImageProps RenderFacts RenderProps CanvasProps LawProps ExactProps RefusalProps HashProps.
From Verif.Tests Require Import Configs Build.

Lemma typed_color_ok : forall x, typed_color x <-> color_ok x.
Proof. reflexivity. Qed.

(** ** Images *)
Section Image.
Context (c : cfg) (s : ase_file) (Hc : cfg_ok c) (Hs : typed c s) (inflate : inflater) (Hinf : inflate_ok inflate).

Lemma made_palette p : f_palette (af_file s) = Some p -> zlen p = 256.
Proof. intro H. now apply Hs in H. Qed.
Lemma made_image im : In im (af_images s) ->
  0 <= im_width im < 65536 /\ 0 <= im_height im < 65536 /\ is_bytes (im_data im).
Proof.
  intro H. destruct Hs as (_ & _ & _ & HI & _). rewrite Forall_forall in HI. destruct (HI im H) as (H1 & H2 & H3 & _).
  change (2 ^ 16) with 65536 in *. auto.
Qed.

Context (j : nat) (im : image) (target : bytes).
Context (Hj : nth_error (af_images s) j = Some im) (Hr : sizes_fit c im) (Hta : addressable c target).
Let size := Z.to_nat (rgba_size im).

Lemma made_size : 0 <= rgba_size im.
Proof. destruct (made_image im (nth_error_In _ _ Hj)) as (H1 & H2 & _). unfold rgba_size. nia. Qed.

Lemma made_unfold : load_image c inflate s (Z.of_nat j) target =
  if zlen target <? rgba_size im then Err (TargetBufferTooSmall, target) else
  with_tail (skipn size target) (decode_image c inflate (af_file s) im (firstn size target)).
Proof.
  destruct (made_image im (nth_error_In _ _ Hj)) as (H1 & H2 & _). destruct Hr as [H3 _]. unfold rgba_size in H3.
  unfold load_image. rewrite (get_index_ok _ (Z.of_nat j) im) by (rewrite ?Nat2Z.id; (assumption || lia)). cbn [bind].
  rewrite usizec_id by nia. cbn [bind]. rewrite usizec_id by nia. reflexivity.
Qed.

Lemma made_area : rgba_size im <= zlen target ->
  zlen (firstn size target) = rgba_size im /\ addressable c (firstn size target).
Proof.
  intro H. pose proof made_size. assert (E : zlen (firstn size target) = rgba_size im) by (apply zlen_firstn; lia).
  split; [exact E|]. unfold addressable in *. lia.
Qed.

Lemma made_ok r : load_image c inflate s (Z.of_nat j) target = Ok r <->
  rgba_size im <= zlen target /\
  exists rgba, decoded inflate (af_file s) im (firstn size target) rgba /\ r = rgba ++ skipn size target.
Proof.
  rewrite made_unfold. destruct (Z.ltb_spec (zlen target) (rgba_size im)) as [H|H].
  { split; [discriminate|]. intros [H' _]. lia. }
  destruct (made_area H) as [HL HA].
  destruct (made_image im (nth_error_In _ _ Hj)) as (H1 & H2 & H3). destruct Hr as [_ H4].
  pose proof (decode_outcome c inflate (af_file s) im (firstn size target) Hc Hinf H1 H2 H3 H4 made_palette HL HA) as HO.
  destruct (decode_image _ _ _ _ _) as [t|[e t]|q]; cbn [with_tail].
  - split.
    + intros [= <-]. split; [lia|]. eauto.
    + intros (_ & rgba & Hd & ->). now rewrite (decoded_unique _ _ _ _ _ _ Hd HO).
  - split; [discriminate|]. intros (_ & rgba & Hd & _). destruct HO as [_ HO]. now apply HO in Hd.
  - split; [discriminate|]. intros (_ & rgba & Hd & _). destruct HO as (_ & Ed & Ez & Hne).
    unfold decoded, stored in Hd. rewrite Ed, Ez in Hd. destruct Hd as [-> Hd]. contradiction.
Qed.

Lemma made_panic q : load_image c inflate s (Z.of_nat j) target = Panic q <->
  q = PCopyLen /\ rgba_size im <= zlen target /\ h_color_depth (f_header (af_file s)) = Rgba /\
  im_compressed im = false /\ zlen (im_data im) <> rgba_size im.
Proof.
  rewrite made_unfold. destruct (Z.ltb_spec (zlen target) (rgba_size im)) as [H|H].
  { split; [discriminate|]. lia. }
  destruct (made_area H) as [HL HA].
  destruct (made_image im (nth_error_In _ _ Hj)) as (H1 & H2 & H3). destruct Hr as [_ H4].
  split.
  - intro E. pose proof (decode_outcome c inflate (af_file s) im (firstn size target) Hc Hinf H1 H2 H3 H4 made_palette HL HA) as HO.
    destruct (decode_image _ _ _ _ _) as [t|[e t]|q']; cbn [with_tail] in E; try discriminate. injection E as <-. intuition.
  - intros (-> & _ & Ed & Ez & Hne). unfold decode_image. rewrite Ed, Ez, HL.
    replace (_ =? _) with false by lia. reflexivity.
Qed.

Lemma made_refused e t : load_image c inflate s (Z.of_nat j) target = Err (e, t) <->
    (zlen target < rgba_size im /\ e = TargetBufferTooSmall /\ t = target) \/
    (rgba_size im <= zlen target /\
     exists left, made_wrong inflate (af_file s) im (firstn size target) e left /\ t = left ++ skipn size target).
Proof.
  rewrite made_unfold. destruct (Z.ltb_spec (zlen target) (rgba_size im)) as [H|H].
  { split; [intros [= <- <-]; auto|]. intros [(_ & -> & ->)|(H' & _)]; [reflexivity|lia]. }
  destruct (made_area H) as [HL HA].
  destruct (made_image im (nth_error_In _ _ Hj)) as (H1 & H2 & H3). pose proof Hr as [_ H4].
  assert (HO : forall e t, decode_image c inflate (af_file s) im (firstn size target) = Err (e, t) <->
    made_wrong inflate (af_file s) im (firstn size target) e t).
  { intros e' t'. unfold made_wrong.
    assert (G : (h_color_depth (f_header (af_file s)) = Indexed -> exists p, f_palette (af_file s) = Some p) ->
      decode_image c inflate (af_file s) im (firstn size target) = Err (e', t') <->
      image_wrong inflate (af_file s) im (firstn size target) e' t')
      by (intro Hh; exact (decode_refused c inflate (af_file s) im (firstn size target) Hc Hinf H1 H2 H3 H4 made_palette Hh HL HA e' t')).
    destruct (h_color_depth (f_header (af_file s))) eqn:Ed; try (apply G; discriminate).
    destruct (f_palette (af_file s)) as [p|] eqn:Ep; [apply G; eauto|]. clear G.
    destruct (area_fits c im (firstn size target) Hc HL HA) as [HB HD]. pose proof (area_nonneg c im H1 H2) as H0.
    unfold decode_image. rewrite Ed, Ep. unfold unfinished. destruct (im_compressed im) eqn:Ez.
    - rewrite usizec_id by lia. cbn [bind]. rewrite (vec_ok c im (firstn size target) Hc HL HA) by lia. cbn [bind].
      unfold decompress. rewrite zlen_repeat, Z2Nat.id by lia.
      destruct (inflate (im_data im) (im_width im * im_height im)) as [st w] eqn:E. split.
      + intro X. destruct st; cbn [local_buf map_err bind need_palette] in X; injection X as <- <-; (split; [reflexivity|]).
        all: try (left; split; [reflexivity|]; exists w; split; [reflexivity|]; eexists; split; [reflexivity|discriminate]).
        right. split; [reflexivity|]. intros w' (_ & st' & [= <- <-] & N). contradiction.
      + intros (-> & [(-> & w' & _ & st' & [= <- <-] & N)|(-> & N)]).
        * destruct st; try reflexivity. contradiction.
        * destruct st; try reflexivity; exfalso; eapply N; (split; [reflexivity|]; eexists; split; [reflexivity|discriminate]).
    - cbn [need_palette bind]. split.
      + intros [= <- <-]. split; [reflexivity|]. right. split; [reflexivity|]. intros w (X & _). discriminate.
      + intros (-> & [(_ & w & X & _)|(-> & _)]); [discriminate|reflexivity]. }
  split.
  - intro E. right. split; [exact H|].
    destruct (decode_image _ _ _ _ _) as [t'|[e' t']|q]; cbn [with_tail] in E; try discriminate. injection E as <- <-.
    exists t'. split; [now apply HO|reflexivity].
  - intros [(H' & _)|(_ & left & Hw & ->)]; [lia|]. apply HO in Hw. rewrite Hw. reflexivity.
Qed.
End Image.

Lemma made_load_image c s : cfg_ok c -> typed c s -> forall inflate, inflate_ok inflate ->
  forall j im target, nth_error (af_images s) j = Some im -> sizes_fit c im -> addressable c target ->
  let size := Z.to_nat (rgba_size im) in
  (forall r, load_image c inflate s (Z.of_nat j) target = Ok r <->
     rgba_size im <= zlen target /\
     exists rgba, decoded inflate (af_file s) im (firstn size target) rgba /\ r = rgba ++ skipn size target) /\
  (forall e t, load_image c inflate s (Z.of_nat j) target = Err (e, t) <->
     (zlen target < rgba_size im /\ e = TargetBufferTooSmall /\ t = target) \/
     (rgba_size im <= zlen target /\
      exists left, made_wrong inflate (af_file s) im (firstn size target) e left /\ t = left ++ skipn size target)) /\
  (forall q, load_image c inflate s (Z.of_nat j) target = Panic q <->
     q = PCopyLen /\ rgba_size im <= zlen target /\ h_color_depth (f_header (af_file s)) = Rgba /\
     im_compressed im = false /\ zlen (im_data im) <> rgba_size im).
Proof.
  intros Hc Hs inflate Hinf j im target Hj Hr Hta. cbv zeta.
  split; [exact (made_ok c s Hc Hs inflate Hinf j im target Hj Hr Hta)|].
  split; [exact (made_refused c s Hc Hs inflate Hinf j im target Hj Hr Hta)|exact (made_panic c s Hc Hs inflate Hinf j im target Hj Hr Hta)].
Qed.

Lemma made_no_image c inflate s j target : nth_error (af_images s) j = None ->
  load_image c inflate s (Z.of_nat j) target = Panic PIndex.
Proof.
  intro H. unfold load_image, get_index. replace (0 <=? Z.of_nat j) with true by lia. rewrite Nat2Z.id, H. reflexivity.
Qed.

(** ** Frames *)
Section Frame.
Context (c : cfg) (s : ase_file) (Hc : cfg_ok c) (Hs : typed c s).
Context (inflate : inflater) (Hinf : inflate_ok inflate) (Hfit : made_fits c s) (sel : layer_selection).

Definition fine (cel : frame_cel) : Prop := typed_cel c cel /\ room cel < 2 ^ (usize_bits c - 1).

Lemma made_canvas : 0 <= canvas_width s < 65536 /\ 0 <= canvas_height s < 65536.
Proof. destruct Hs as (H1 & H2 & _). change (2 ^ 16) with 65536 in *. auto. Qed.
Lemma made_opacity l : In l (af_layers s) -> is_byte (ly_opacity l).
Proof. destruct Hs as (_ & _ & _ & _ & H & _). rewrite Forall_forall in H. apply H. Qed.
Lemma room_facts cel : fine cel ->
  0 <= fst (fc_size cel) /\ 0 <= snd (fc_size cel) /\ 0 <= room cel /\ room cel < 2 ^ usize_bits c.
Proof.
  intros ((_ & _ & H1 & H2 & _) & H3). destruct (usize_pos c Hc) as [_ HU]. unfold room in *.
  split; [lia|]. split; [lia|]. split; [nia|lia].
Qed.

Lemma view_bytes cel view : cel_view inflate s cel view -> is_bytes view.
Proof.
  intros (im & own & Hj & _ & Hd & ->). apply Forall_app. split; [|apply bytes_zero].
  pose proof (nth_error_In _ _ Hj) as Him. destruct (made_image c s Hs im Him) as (_ & _ & Hdata).
  assert (HST : forall old pxs, is_bytes old -> stored inflate im old pxs -> is_bytes pxs).
  { intros old pxs Hold. unfold stored. destruct (im_compressed im); [|now intros ->].
    intros (w & E & ->). eapply inflated_bytes; eassumption. }
  unfold decoded in Hd. destruct (h_color_depth (f_header (af_file s))).
  - destruct Hd as [Hst _]. eapply HST; [apply bytes_zero|exact Hst].
  - destruct Hd as (pxs & Hst & _ & ->). eapply gray_bytes; [apply le_n|]. eapply HST; [apply bytes_zero|exact Hst].
  - destruct Hd as (pxs & pal & Hst & Hp & _ & ->). apply Hs in Hp. destruct Hp as [_ Hp]. unfold index_rgba.
    clear Hst. induction pxs as [|k pxs IH]; [constructor|]. cbn [flat_map]. apply Forall_app. split; [|exact IH].
    assert (G : color_ok (nth (Z.to_nat k) pal black)).
    { destruct (nth_in_or_default (Z.to_nat k) pal black) as [Hin| ->]; [|exact black_ok]. rewrite Forall_forall in Hp. now apply Hp. }
    destruct G as (G1 & G2 & G3 & G4). repeat (constructor; [assumption|]). constructor.
  - contradiction.
Qed.
Lemma view_unique cel a b : cel_view inflate s cel a -> cel_view inflate s cel b -> a = b.
Proof.
  intros (im & o & Hj & _ & Hd & ->) (im' & o' & Hj' & _ & Hd' & ->). assert (im' = im) as -> by congruence.
  f_equal. eapply decoded_unique; eassumption.
Qed.

Lemma zeros_split n m : 0 <= n <= m ->
  firstn (Z.to_nat n) (repeat 0 (Z.to_nat m)) = repeat 0 (Z.to_nat n) /\
  skipn (Z.to_nat n) (repeat 0 (Z.to_nat m)) = repeat 0 (Z.to_nat (m - n)).
Proof.
  intro H. replace (Z.to_nat m) with (Z.to_nat n + Z.to_nat (m - n))%nat by lia. rewrite repeat_app. split.
  - rewrite firstn_app, repeat_length, Nat.sub_diag. cbn [firstn]. rewrite app_nil_r. apply firstn_all2. rewrite repeat_length. lia.
  - rewrite skipn_app, repeat_length, Nat.sub_diag. cbn [skipn]. rewrite skipn_all2; [reflexivity|]. rewrite repeat_length. lia.
Qed.

(** Loading the image of a cel into a fresh buffer. *)
Lemma made_loaded cel : fine cel ->
  match load_image c inflate s (fc_image_index cel) (repeat 0 (Z.to_nat (room cel))) with
  | Ok view => cel_view inflate s cel view /\ zlen view = room cel
  | Err _ => (forall view, ~ cel_view inflate s cel view) /\ ~ no_image s cel /\ ~ bad_copy s cel
  | Panic q => (forall view, ~ cel_view inflate s cel view) /\
      ((q = PIndex /\ no_image s cel) \/ (q = PCopyLen /\ bad_copy s cel))
  end.
Proof.
  intro Hok. destruct (room_facts cel Hok) as (_ & _ & R0 & R1). destruct Hok as ((_ & _ & _ & _ & _ & I0 & _) & HR).
  unfold no_image, bad_copy.
  destruct (nth_error (af_images s) (Z.to_nat (fc_image_index cel))) as [im|] eqn:Hj.
  2:{ pose proof (made_no_image c inflate s (Z.to_nat (fc_image_index cel)) (repeat 0 (Z.to_nat (room cel))) Hj) as E.
      rewrite Z2Nat.id in E by exact I0. rewrite E. split; [|left; auto].
      intros view (im & own & Hj' & _). congruence. }
  pose proof (nth_error_In _ _ Hj) as Him. destruct (made_image c s Hs im Him) as (H1 & H2 & _).
  pose proof Hfit as (_ & HF & _). rewrite Forall_forall in HF. pose proof (HF im Him) as Hsz.
  set (t := repeat 0 (Z.to_nat (room cel))).
  assert (Ht : zlen t = room cel) by (unfold t; rewrite zlen_repeat; lia).
  assert (Hta : addressable c t) by (unfold addressable; lia).
  pose proof (made_ok c s Hc Hs inflate Hinf _ im t Hj Hsz Hta) as HO.
  pose proof (made_panic c s Hc Hs inflate Hinf _ im t Hj Hsz Hta) as HP.
  rewrite Z2Nat.id in HO, HP by exact I0. rewrite Ht in HO, HP.
  assert (Hs0 : 0 <= rgba_size im) by (unfold rgba_size; nia).
  assert (HV : forall view, load_image c inflate s (fc_image_index cel) t = Ok view <-> cel_view inflate s cel view).
  { intro view. rewrite HO. split.
    - intros (Hle & own & Hd & ->). destruct (zeros_split (rgba_size im) (room cel) ltac:(lia)) as [E1 E2].
      unfold t in *. rewrite E1 in Hd. rewrite E2. exists im, own. auto.
    - intros (im' & own & Hj' & Hle & Hd & ->). assert (im' = im) as -> by congruence.
      destruct (zeros_split (rgba_size im) (room cel) ltac:(lia)) as [E1 E2]. split; [exact Hle|]. exists own.
      unfold t. rewrite E1, E2. auto. }
  destruct (load_image c inflate s (fc_image_index cel) t) as [view|e|q].
  - pose proof (proj1 (HV view) eq_refl) as Hv. split; [exact Hv|].
    destruct Hv as (im' & own & Hj' & Hle & Hd & ->). assert (im' = im) as -> by congruence.
    assert (Hl : zlen own = rgba_size im).
    { eapply (decoded_length c inflate (af_file s) im (repeat 0 (Z.to_nat (rgba_size im)))); [| |exact (made_palette c s Hs)|exact Hd]; assumption. }
    rewrite zlen_app, zlen_repeat, Hl. lia.
  - split; [intros view Hv; apply HV in Hv; discriminate|]. split; [discriminate|].
    intros (Hd & im' & Hj' & Hle & Hz & Hn). assert (im' = im) as -> by congruence.
    assert (X : Err e = Panic PCopyLen) by (apply HP; auto). discriminate.
  - split; [intros view Hv; apply HV in Hv; discriminate|]. right.
    destruct (proj1 (HP q) eq_refl) as (-> & Hle & Hd & Hz & Hn). split; [reflexivity|]. split; [exact Hd|]. exists im. auto.
Qed.

Lemma made_cel_eq cel t : fine cel ->
  render_cel c inflate s sel t cel =
  match drawn s sel cel with
  | None => Ok t
  | Some l =>
      let* view := unwrap (load_image c inflate s (fc_image_index cel) (repeat 0 (Z.to_nat (room cel)))) in
      let* f := lift (blend_mode_to_blend_fn c (ly_blend_mode l)) in
      render_pixels c (canvas_width s) (canvas_height s) cel view f (ly_opacity l) t
  end.
Proof.
  intro Hok. unfold render_cel, drawn.
  destruct (nth_error (af_layers s) (Z.to_nat (fc_layer_index cel))) as [l|]; [|reflexivity].
  rewrite chosen_is. destruct (chosen sel (fc_layer_index cel) l); cbn [negb]; rewrite ?orb_true_r, ?orb_false_r.
  2:{ destruct (ly_layer_type l); reflexivity. }
  assert (E : forall A (k : bytes -> out (load_image_error * bytes) A),
      (let* n := usizec c (fst (fc_size cel) * snd (fc_size cel)) in
       let* n := usizec c (n * 4) in
       let* cel_target := vec_zeroed c n in k cel_target) = k (repeat 0 (Z.to_nat (room cel)))).
  { intros A k. destruct (room_facts cel Hok) as (H1 & H2 & H3 & H4). destruct Hok as (_ & HR). unfold room in *.
    rewrite usizec_id by nia. cbn [bind]. rewrite usizec_id by nia. cbn [bind].
    unfold vec_zeroed. replace (_ <? _) with true by lia. reflexivity. }
  destruct (ly_layer_type l); try reflexivity; cbn [layer_type_eqb]; apply E.
Qed.

(** Why a cel cannot be drawn. *)
Definition trouble (cel : frame_cel) (l : layer) (q : panic) : Prop :=
  (((q = PIndex /\ no_image s cel) \/ (q = PCopyLen /\ bad_copy s cel) \/ q = PUnwrap) /\
     (forall view, ~ cel_view inflate s cel view)) \/
  (q = PExplicit /\ ~ known_mode (ly_blend_mode l)) \/
  (q = PDebugAssert /\ debug c = true /\ hsl (ly_blend_mode l)).
Definition viewable (cel : frame_cel) (l : layer) : Prop :=
  (exists view, cel_view inflate s cel view) /\ known_mode (ly_blend_mode l).

Lemma stacked_unique x y cels : forall back p q,
  stacked c inflate s sel x y cels back p -> stacked c inflate s sel x y cels back q -> p = q.
Proof.
  induction cels as [|cel cels IH]; intros back p q Hp Hq; inversion Hp; inversion Hq; subst; try reflexivity;
    repeat match goal with H : _ \/ _ |- _ => destruct H end; try congruence; try (eapply IH; eassumption).
  match goal with A : cel_view _ _ _ ?a, B : cel_view _ _ _ ?b |- _ => assert (a = b) as -> by (eapply view_unique; [exact A|exact B]) end.
  repeat match goal with A : ?x = _, B : ?x = _ |- _ => rewrite A in B; injection B as B; try subst end.
  eapply IH; eassumption.
Qed.
Lemma stacked_app x y a b : forall back p, stacked c inflate s sel x y (a ++ b) back p ->
  exists m, stacked c inflate s sel x y a back m /\ stacked c inflate s sel x y b m p.
Proof.
  induction a as [|cel a IH]; intros back p H; [exists back; split; [constructor|exact H]|].
  cbn [app] in H. inversion H; subst.
  - destruct (IH _ _ ltac:(eassumption)) as (m & G1 & G2). exists m. split; [apply stacked_skip; assumption|exact G2].
  - destruct (IH _ _ ltac:(eassumption)) as (m & G1 & G2). exists m. split; [eapply stacked_draw; eassumption|exact G2].
Qed.
Lemma stacked_join x y a b : forall back m p, stacked c inflate s sel x y a back m ->
  stacked c inflate s sel x y b m p -> stacked c inflate s sel x y (a ++ b) back p.
Proof. intros back m p H. revert p. induction H; intros r G; cbn [app]; [exact G|apply stacked_skip; auto|eapply stacked_draw; eauto]. Qed.

Lemma made_cel_outcome cel t : fine cel -> is_bytes t -> canvas_size s <= zlen t ->
  match render_cel c inflate s sel t cel with
  | Ok t' => zlen t' = zlen t /\ is_bytes t' /\
      (forall n, canvas_size s <= Z.of_nat n -> nth_error t' n = nth_error t n) /\
      (forall l, drawn s sel cel = Some l -> viewable cel l) /\
      (drawn s sel cel = None -> t' = t) /\
      forall x y, 0 <= x < canvas_width s -> 0 <= y < canvas_height s ->
        exists back p, pixel (canvas_width s) t x y = Some back /\ pixel (canvas_width s) t' x y = Some p /\
          forall cels r, stacked c inflate s sel x y cels p r -> stacked c inflate s sel x y (cel :: cels) back r
  | Err _ => False
  | Panic q => exists l, drawn s sel cel = Some l /\ trouble cel l q
  end.
Proof.
  intros Hok Hb Ht. rewrite made_cel_eq by exact Hok. destruct (made_canvas) as [HW HH].
  destruct (drawn s sel cel) as [l|] eqn:Ed.
  2:{ split; [reflexivity|]. split; [exact Hb|]. split; [reflexivity|]. split; [discriminate|]. split; [reflexivity|].
      intros x y Hx Hy. exists (at_px t (Z.to_nat (y * canvas_width s + x))), (at_px t (Z.to_nat (y * canvas_width s + x))).
      rewrite (pixel_at_px (canvas_width s) (canvas_height s)) by (assumption || exact Ht). split; [reflexivity|]. split; [reflexivity|].
      intros cels r H. apply stacked_skip; [now left|exact H]. }
  pose proof (made_loaded cel Hok) as HL. cbv zeta in HL.
  destruct (load_image c inflate s _ _) as [image|e|q]; cbn [unwrap bind].
  - destruct HL as [Himg Hlen].
    destruct (mode_cases (ly_blend_mode l)) as [Hm|[w Hm]].
    2:{ rewrite Hm, unknown_mode. cbn [lift bind]. exists l. split; [reflexivity|]. right. left. split; [reflexivity|].
        rewrite Hm. apply unknown_not_known. }
    destruct (known_fn c _ Hm) as [f Ef]. rewrite Ef. cbn [lift bind].
    destruct (room_facts cel Hok) as (H1 & H2 & _ & H3). pose proof Hfit as [HC _]. unfold canvas_size, room in *.
    pose proof (made_opacity l (drawn_layer s sel cel l Ed)) as Hop.
    pose proof (view_bytes cel image Himg) as Hib.
    assert (Hf : forall b f' p, is_px b -> is_px f' -> f b f' (ly_opacity l) = Ok p -> is_px p).
    { intros b f' p Hpb Hpf E. pose proof (mode_fn c _ f b f' (ly_opacity l) Hpb Hpf Hop Ef) as G. now rewrite E in G. }
    pose proof (render_pixels_outcome c (canvas_width s) (canvas_height s) cel image f (ly_opacity l) HW HH HC H1 H2 H3 Hlen t Ht) as HR.
    assert (HB : forall t', render_pixels c (canvas_width s) (canvas_height s) cel image f (ly_opacity l) t = Ok t' -> is_bytes t')
      by (intros t' Et; eapply (render_pixels_bytes c (canvas_width s) (canvas_height s) cel image f (ly_opacity l)) with (t := t); eassumption).
    destruct (render_pixels _ _ _ _ _ _ _ t) as [t'|e|q].
    + destruct HR as (L & N & V). split; [exact L|]. split; [now apply HB|]. split; [exact N|].
      split; [intros l' [= <-]; split; [eauto|exact Hm]|]. split; [discriminate|].
      intros x y Hx Hy. destruct (V x y Hx Hy) as (back & p & E1 & E2 & E3). exists back, p. split; [exact E1|]. split; [exact E2|].
      intros cels r Hr. destruct (covers cel x y) eqn:Ec.
      * destruct E3 as (front & E4 & E5). eapply stacked_draw; eassumption.
      * subst p. apply stacked_skip; [now right|exact Hr].
    + exact HR.
    + destruct HR as (x & y & back & front & Hx & Hy & Hcv & E1 & E2 & E3). exists l. split; [reflexivity|]. right. right.
      assert (Pb : is_px back).
      { rewrite (pixel_at_px (canvas_width s) (canvas_height s)) in E1 by assumption. injection E1 as <-. now apply at_px_byte. }
      assert (Pf : is_px front).
      { unfold covers in Hcv. destruct (fc_origin cel) as [ox oy], (fc_size cel) as [w h]. cbn [fst snd] in *.
        rewrite (pixel_at_px w h) in E2 by lia. injection E2 as <-. now apply at_px_byte. }
      pose proof (mode_fn c _ f back front (ly_opacity l) Pb Pf Hop Ef) as G. rewrite E3 in G. exact G.
  - destruct HL as [Hn _]. exists l. split; [reflexivity|]. left. auto.
  - destruct HL as [Hn HL]. exists l. split; [reflexivity|]. left. split; [|exact Hn]. destruct HL; auto.
Qed.

Lemma made_cels_outcome cels : Forall (fine) cels -> forall t, is_bytes t -> canvas_size s <= zlen t ->
  match fold_out (render_cel c inflate s sel) cels t with
  | Ok t' => zlen t' = zlen t /\ is_bytes t' /\
      (forall n, canvas_size s <= Z.of_nat n -> nth_error t' n = nth_error t n) /\
      (forall cel l, In cel cels -> drawn s sel cel = Some l -> viewable cel l) /\
      ((forall cel, In cel cels -> drawn s sel cel = None) -> t' = t) /\
      forall x y, 0 <= x < canvas_width s -> 0 <= y < canvas_height s ->
        exists back p, pixel (canvas_width s) t x y = Some back /\ pixel (canvas_width s) t' x y = Some p /\
          stacked c inflate s sel x y cels back p
  | Err _ => False
  | Panic q => exists cel l, In cel cels /\ drawn s sel cel = Some l /\ trouble cel l q
  end.
Proof.
  induction 1 as [|cel cels Hok HF IH]; intros t Hb Ht; cbn [fold_out].
  { split; [reflexivity|]. split; [exact Hb|]. split; [reflexivity|]. split; [intros ? ? []|]. split; [reflexivity|].
    intros x y Hx Hy. eexists _, _. rewrite (pixel_at_px (canvas_width s) (canvas_height s)) by (assumption || exact Ht).
    split; [reflexivity|]. split; [reflexivity|]. constructor. }
  pose proof (made_cel_outcome cel t Hok Hb Ht) as HC. destruct (render_cel c inflate s sel t cel) as [t1|e|q]; cbn [bind].
  - destruct HC as (L & B & N & D & U & V). specialize (IH t1 B ltac:(lia)).
    destruct (fold_out _ cels t1) as [t'|e|q].
    + destruct IH as (L' & B' & N' & D' & U' & V'). split; [lia|]. split; [exact B'|]. split.
      { intros n Hn. rewrite N', N by exact Hn. reflexivity. }
      split; [intros x l [<-|Hx]; [apply D|now apply D']|]. split.
      { intro Hd. rewrite U'; [apply U|]; intros; apply Hd; [now left|now right]. }
      intros x y Hx Hy. destruct (V x y Hx Hy) as (back & p & E1 & E2 & E3). destruct (V' x y Hx Hy) as (b' & p' & E1' & E2' & E3').
      assert (b' = p) as -> by congruence. exists back, p'. auto.
    + exact IH.
    + destruct IH as (x & l & Hx & G). exists x, l. split; [now right|exact G].
  - exact HC.
  - destruct HC as (l & G). exists cel, l. split; [now left|exact G].
Qed.

(** A failed assertion belongs to a pixel that cannot be stacked. *)
Lemma made_cel_assert cel t : fine cel -> is_bytes t -> canvas_size s <= zlen t ->
  render_cel c inflate s sel t cel = Panic PDebugAssert ->
  exists x y back, 0 <= x < canvas_width s /\ 0 <= y < canvas_height s /\ pixel (canvas_width s) t x y = Some back /\
    forall cels p, ~ stacked c inflate s sel x y (cel :: cels) back p.
Proof.
  intros Hok Hb Ht. rewrite made_cel_eq by exact Hok.
  destruct (made_canvas) as [HW HH].
  destruct (drawn s sel cel) as [l|] eqn:Ed; [|discriminate].
  pose proof (made_loaded cel Hok) as HL. cbv zeta in HL.
  destruct (load_image c inflate s _ _) as [image|e|q]; cbn [unwrap bind]; [|discriminate|destruct HL as (_ & [[-> _]|[-> _]]); discriminate].
  destruct HL as [Himg Hlen].
  destruct (mode_cases (ly_blend_mode l)) as [Hm|[w Hm]].
  2:{ rewrite Hm, unknown_mode. cbn [lift bind]. discriminate. }
  destruct (known_fn c _ Hm) as [f Ef]. rewrite Ef. cbn [lift bind]. intro E.
  destruct (room_facts cel Hok) as (H1 & H2 & _ & H3). pose proof Hfit as [HC _]. unfold canvas_size, room in *.
  pose proof (render_pixels_outcome c (canvas_width s) (canvas_height s) cel image f (ly_opacity l) HW HH HC H1 H2 H3 Hlen t Ht) as HR.
  rewrite E in HR. destruct HR as (x & y & back & front & Hx & Hy & Hcv & E1 & E2 & E3). exists x, y, back.
  split; [exact Hx|]. split; [exact Hy|]. split; [exact E1|]. intros cels p H.
  inversion H as [|? ? ? ? D|? ? ? l' image' front' f' mid ? D1 D2 D3 D4 D5 D6 D7]; subst; [destruct D; congruence|].
  assert (l' = l) as -> by congruence. assert (image' = image) as -> by (eapply view_unique; eassumption).
  assert (front' = front) as -> by congruence. assert (f' = f) as -> by congruence. congruence.
Qed.

Lemma stacked_tail x y cel cels back mid r :
  stacked c inflate s sel x y [cel] back mid -> stacked c inflate s sel x y (cel :: cels) back r -> stacked c inflate s sel x y cels mid r.
Proof.
  intros H1 H. assert (exists mid', stacked c inflate s sel x y [cel] back mid' /\ stacked c inflate s sel x y cels mid' r) as (mid' & G1 & G2).
  { inversion H; subst.
    - eexists. split; [apply stacked_skip; [eassumption|constructor]|assumption].
    - eexists. split; [eapply stacked_draw; try eassumption; constructor|assumption]. }
  assert (mid' = mid) as -> by (eapply stacked_unique; eassumption). exact G2.
Qed.

Lemma made_cels_assert cels : Forall (fine) cels -> forall t, is_bytes t -> canvas_size s <= zlen t ->
  fold_out (render_cel c inflate s sel) cels t = Panic PDebugAssert ->
  exists x y back, 0 <= x < canvas_width s /\ 0 <= y < canvas_height s /\ pixel (canvas_width s) t x y = Some back /\
    forall p, ~ stacked c inflate s sel x y cels back p.
Proof.
  induction 1 as [|cel cels Hok HF IH]; intros t Hb Ht; cbn [fold_out]; [discriminate|].
  pose proof (made_cel_outcome cel t Hok Hb Ht) as HC.
  destruct (render_cel c inflate s sel t cel) as [t1|e|q] eqn:E; cbn [bind]; intro H; [|discriminate|].
  - destruct HC as (L & B & _ & _ & _ & V). destruct (IH t1 B ltac:(lia) H) as (x & y & mid & Hx & Hy & P & N).
    destruct (V x y Hx Hy) as (back & p & E1 & E2 & E3). assert (p = mid) as -> by congruence.
    exists x, y, back. split; [exact Hx|]. split; [exact Hy|]. split; [exact E1|]. intros r G. apply (N r).
    eapply stacked_tail; [|exact G]. apply E3. constructor.
  - injection H as ->. destruct (made_cel_assert cel t Hok Hb Ht E) as (x & y & back & Hx & Hy & P & N).
    exists x, y, back. repeat split; try assumption; try lia. apply N.
Qed.
(** The cels that can be drawn are those that are. *)
Lemma stacks cels : Forall (fine) cels -> forall t, is_bytes t -> canvas_size s <= zlen t ->
  can_stack c inflate s sel cels t <-> exists t', fold_out (render_cel c inflate s sel) cels t = Ok t'.
Proof.
  intros HF t Hb Ht. pose proof (made_cels_outcome cels HF t Hb Ht) as HO.
  pose proof (made_cels_assert cels HF t Hb Ht) as HA. split.
  - intros (D & V). destruct (fold_out _ cels t) as [t'|e|q] eqn:E; [eauto|contradiction|]. exfalso.
    destruct HO as (cel & l & Hin & Hdr & G). destruct (D cel l Hin Hdr) as ([image Him] & Hm).
    destruct G as [[_ G]|[[_ G]|(-> & _)]].
    + exact (G _ Him).
    + exact (G Hm).
    + destruct (HA eq_refl) as (x & y & back & Hx & Hy & P & N). destruct (V x y back Hx Hy P) as (p & C). exact (N p C).
  - intros [t' E]. rewrite E in HO. destruct HO as (_ & _ & _ & D & _ & V). split; [exact D|].
    intros x y back Hx Hy P. destruct (V x y Hx Hy) as (back' & p & E1 & _ & C). assert (back' = back) as -> by congruence. eauto.
Qed.

Lemma cel_stuck before t t' cel l q : Forall (fine) before -> fine cel -> is_bytes t -> canvas_size s <= zlen t ->
  fold_out (render_cel c inflate s sel) before t = Ok t' -> drawn s sel cel = Some l ->
  render_cel c inflate s sel t' cel = Panic q <-> stuck c inflate s sel t before cel l q.
Proof.
  intros HF Hok Hb Ht E Ed. pose proof (made_cels_outcome before HF t Hb Ht) as HO.
  rewrite E in HO. destruct HO as (L' & B' & _ & _ & _ & V').
  assert (Ht' : canvas_size s <= zlen t') by lia.
  pose proof (made_cel_assert cel t' Hok B' Ht') as HA.
  pose proof (made_cel_outcome cel t' Hok B' Ht') as HC.
  pose proof (made_loaded cel Hok) as HL. cbv zeta in HL.
  assert (HM : forall x y back mid, stacked c inflate s sel x y before back mid ->
    forall p, stacked c inflate s sel x y (before ++ [cel]) back p -> stacked c inflate s sel x y [cel] mid p).
  { intros x y back mid H1 p H. apply stacked_app in H. destruct H as (m & G1 & G2).
    assert (m = mid) as -> by (eapply stacked_unique; eassumption). exact G2. }
  assert (EQ : render_cel c inflate s sel t' cel = _) by (rewrite made_cel_eq by exact Hok; rewrite Ed; reflexivity).
  split.
  - intro G. rewrite G in HC. destruct HC as (l' & Hd' & O). assert (l' = l) as -> by congruence.
    rewrite G in EQ. destruct (load_image c inflate s _ _) as [image|e|q'] eqn:EL; cbn [unwrap bind] in EQ.
    + destruct HL as [Him _]. destruct (mode_cases (ly_blend_mode l)) as [Hm|[w Hm]].
      2:{ rewrite Hm, unknown_mode in EQ. cbn [lift bind] in EQ. injection EQ as ->. eapply s_mode; [exact Him|]. rewrite Hm. apply unknown_not_known. }
      destruct O as [[_ G']|[[_ G']|(-> & _)]].
      * exfalso. exact (G' _ Him).
      * exfalso. exact (G' Hm).
      * destruct (HA G) as (x & y & mid & Hx & Hy & P & N). destruct (V' x y Hx Hy) as (back & p & E1 & E2 & C).
        assert (p = mid) as -> by congruence. eapply s_pixel; try eassumption. intros r H. exact (N [] r (HM _ _ _ _ C _ H)).
    + injection EQ as ->. destruct HL as (N & N1 & N2). now apply s_image.
    + injection EQ as ->. destruct HL as (_ & [[-> W]|[-> W]]); [now apply s_index|now apply s_length].
  - intro H. destruct H as [W|W|W1 W2 N|image Him Hm|image x y back Him Hm Hx Hy P N].
    + destruct (load_image c inflate s _ _) as [image|e|q'] eqn:EL.
      * exfalso. destruct HL as ((im & own & Hj & _) & _). unfold no_image in W. congruence.
      * exfalso. exact (proj1 (proj2 HL) W).
      * rewrite EQ. cbn [unwrap bind]. destruct HL as (_ & [[-> _]|[-> (_ & im & Hj & _)]]); [reflexivity|]. unfold no_image in W. congruence.
    + destruct (load_image c inflate s _ _) as [image|e|q'] eqn:EL.
      * exfalso. destruct W as (Wd & im & Wj & _ & Wz & Wn). destruct HL as ((im' & own & Hj & _ & Hd & _) & _).
        assert (im' = im) as -> by congruence. unfold decoded, stored in Hd. rewrite Wd, Wz in Hd. destruct Hd as [-> Hd]. contradiction.
      * exfalso. exact (proj2 (proj2 HL) W).
      * rewrite EQ. cbn [unwrap bind]. destruct HL as (_ & [[-> Hi]|[-> _]]); [|reflexivity].
        destruct W as (_ & im & Wj & _). unfold no_image in Hi. congruence.
    + destruct (load_image c inflate s _ _) as [image|e|q'] eqn:EL.
      * exfalso. exact (N _ (proj1 HL)).
      * rewrite EQ. reflexivity.
      * exfalso. destruct HL as (_ & [[_ X]|[_ X]]); contradiction.
    + destruct (load_image c inflate s _ _) as [image'|e|q'] eqn:EL.
      * destruct (mode_cases (ly_blend_mode l)) as [Hm'|[w Hm']]; [contradiction|].
        rewrite EQ. cbn [unwrap bind]. rewrite Hm', unknown_mode. reflexivity.
      * exfalso. exact (proj1 HL _ Him).
      * exfalso. exact (proj1 HL _ Him).
    + destruct (V' x y Hx Hy) as (back' & mid & E1 & E2 & C). assert (back' = back) as -> by congruence.
      destruct (render_cel c inflate s sel t' cel) as [t2|e|q].
      * exfalso. destruct HC as (_ & _ & _ & _ & _ & V2). destruct (V2 x y Hx Hy) as (mid' & p & F1 & F2 & F3).
        assert (mid' = mid) as -> by congruence. apply (N p). eapply stacked_join; [exact C|]. apply F3. constructor.
      * contradiction.
      * destruct HC as (l' & Hd' & O). assert (l' = l) as -> by congruence. f_equal.
        destruct O as [[_ G']|[[_ G']|(-> & _)]].
        -- exfalso. exact (G' _ Him).
        -- exfalso. exact (G' Hm).
        -- reflexivity.
Qed.

Lemma frames_fine k sf : nth_error (api_frames s) k = Some sf -> Forall fine (sf_cels sf).
Proof.
  intro Hk. apply nth_error_In in Hk. destruct Hs as (_ & _ & _ & _ & _ & H1). destruct Hfit as (_ & _ & H2).
  rewrite Forall_forall in H1, H2. specialize (H1 sf Hk). specialize (H2 sf Hk). rewrite Forall_forall in *.
  intros cel Hcel. split; auto.
Qed.
Lemma made_frame_eq k sf t : nth_error (api_frames s) k = Some sf ->
  render_frame c inflate s (Z.of_nat k) t sel =
  if zlen t <? canvas_size s then Err (TargetBufferTooSmall, t) else fold_out (render_cel c inflate s sel) (sf_cels sf) t.
Proof.
  intro Hk. destruct made_canvas as [HW HH]. destruct Hfit as [HC _].
  unfold render_frame. unfold canvas_size, canvas_width, canvas_height in *.
  rewrite usizec_id by nia. cbn [bind]. rewrite usizec_id by nia. cbn [bind].
  destruct (_ <? _); [reflexivity|]. rewrite (get_index_ok _ (Z.of_nat k) sf) by (rewrite ?Nat2Z.id; (assumption || lia)). reflexivity.
Qed.
End Frame.

Lemma made_exactly c s : cfg_ok c -> typed c s -> made_fits c s ->
  forall inflate, inflate_ok inflate ->
  forall sel k sf target r, nth_error (api_frames s) k = Some sf -> is_bytes target ->
  (render_frame c inflate s (Z.of_nat k) target sel = Ok r <->
   canvas_size s <= zlen target /\ zlen r = zlen target /\
   skipn (Z.to_nat (canvas_size s)) r = skipn (Z.to_nat (canvas_size s)) target /\
   (forall cel l, In cel (sf_cels sf) -> drawn s sel cel = Some l ->
      (exists view, cel_view inflate s cel view) /\ known_mode (ly_blend_mode l)) /\
   forall x y, 0 <= x < canvas_width s -> 0 <= y < canvas_height s ->
     exists back p, pixel (canvas_width s) target x y = Some back /\ pixel (canvas_width s) r x y = Some p /\
       stacked c inflate s sel x y (sf_cels sf) back p).
Proof.
  intros Hc Hs Hfit inflate Hinf sel k sf t r Hk Hb.
  rewrite (made_frame_eq c s Hs inflate Hfit sel k sf t Hk).
  pose proof (frames_fine c s Hs Hfit k sf Hk) as HF.
  destruct (Z.ltb_spec (zlen t) (canvas_size s)) as [H|Ht].
  { split; [discriminate|]. intros (H' & _). lia. }
  pose proof (made_cels_outcome c s Hc Hs inflate Hinf Hfit sel _ HF t Hb Ht) as HO.
  destruct (fold_out _ _ t) as [r'|e|q] eqn:E.
  - destruct HO as (L & _ & N & D & _ & V).
    assert (S : skipn (Z.to_nat (canvas_size s)) r' = skipn (Z.to_nat (canvas_size s)) t)
      by (apply nth_error_skipn_ext; intros m Hm; apply N; lia).
    split; [intros [= <-]; auto|]. intros (_ & L' & S' & _ & V'). f_equal.
    destruct (made_canvas c s Hs) as [[W0 _] [H0 _]].
    apply (same_pixels (canvas_width s) (canvas_height s) t); try assumption.
    intros x y Hx Hy. destruct (V x y Hx Hy) as (back & p & P1 & P2 & C).
    destruct (V' x y Hx Hy) as (back' & p' & P1' & P2' & C').
    assert (back' = back) as -> by congruence. assert (p' = p) as -> by (eapply stacked_unique; eassumption). congruence.
  - contradiction.
  - split; [discriminate|]. intros (_ & _ & _ & D & V). exfalso.
    assert (X : can_stack c inflate s sel (sf_cels sf) t).
    { split; [exact D|]. intros x y back Hx Hy P. destruct (V x y Hx Hy) as (b & p & P1 & _ & C).
      assert (b = back) as -> by congruence. eauto. }
    apply (stacks c s Hc Hs inflate Hinf Hfit sel _ HF t Hb Ht) in X. destruct X as [t' X]. congruence.
Qed.

Lemma made_panics c s : cfg_ok c -> typed c s -> made_fits c s ->
  forall inflate, inflate_ok inflate ->
  forall sel k sf target, nth_error (api_frames s) k = Some sf -> is_bytes target ->
  forall q, render_frame c inflate s (Z.of_nat k) target sel = Panic q <->
    canvas_size s <= zlen target /\
    exists before cel after l, sf_cels sf = before ++ cel :: after /\ drawn s sel cel = Some l /\
      can_stack c inflate s sel before target /\ stuck c inflate s sel target before cel l q.
Proof.
  intros Hc Hs Hfit inflate Hinf sel k sf t Hk Hb q.
  rewrite (made_frame_eq c s Hs inflate Hfit sel k sf t Hk).
  pose proof (frames_fine c s Hs Hfit k sf Hk) as HF.
  destruct (Z.ltb_spec (zlen t) (canvas_size s)) as [H|Ht].
  { split; [discriminate|]. intros (H' & _). lia. }
  split.
  - intro G. split; [exact Ht|]. apply fold_panics in G. destruct G as (before & cel & after & t' & E & H1 & H2).
    rewrite E in HF. apply Forall_app in HF. destruct HF as [HF1 HF2]. inversion HF2 as [|? ? Hok _]; subst.
    assert (exists l, drawn s sel cel = Some l) as [l Ed].
    { rewrite (made_cel_eq c s Hc inflate sel) in H2 by exact Hok. destruct (drawn s sel cel) as [l|]; [eauto|discriminate]. }
    exists before, cel, after, l. split; [exact E|]. split; [exact Ed|]. split.
    + apply (stacks c s Hc Hs inflate Hinf Hfit sel before HF1 t Hb Ht). eauto.
    + apply (cel_stuck c s Hc Hs inflate Hinf Hfit sel before t t' cel l q HF1 Hok Hb Ht H1 Ed). exact H2.
  - intros (_ & before & cel & after & l & E & Ed & D & Hh).
    rewrite E in HF. apply Forall_app in HF. destruct HF as [HF1 HF2]. inversion HF2 as [|? ? Hok _]; subst.
    apply (stacks c s Hc Hs inflate Hinf Hfit sel before HF1 t Hb Ht) in D. destruct D as [t' H1].
    rewrite E. apply fold_panics. exists before, cel, after, t'. split; [reflexivity|]. split; [exact H1|].
    apply (cel_stuck c s Hc Hs inflate Hinf Hfit sel before t t' cel l q HF1 Hok Hb Ht H1 Ed). exact Hh.
Qed.

(** The other outcomes. *)
Lemma made_other c s : cfg_ok c -> typed c s -> made_fits c s ->
  forall inflate, inflate_ok inflate -> forall sel k target, is_bytes target ->
  (forall e t, render_frame c inflate s (Z.of_nat k) target sel = Err (e, t) <->
     zlen target < canvas_size s /\ e = TargetBufferTooSmall /\ t = target) /\
  (nth_error (api_frames s) k = None -> canvas_size s <= zlen target ->
     render_frame c inflate s (Z.of_nat k) target sel = Panic PIndex).
Proof.
  intros Hc Hs Hfit inflate Hinf sel k target Hb.
  assert (E : zlen target < canvas_size s -> render_frame c inflate s (Z.of_nat k) target sel = Err (TargetBufferTooSmall, target)).
  { intro Ht. destruct (made_canvas c s Hs) as [HW HH]. destruct Hfit as [HC _]. unfold render_frame.
    unfold canvas_size, canvas_width, canvas_height in *.
    rewrite usizec_id by nia. cbn [bind]. rewrite usizec_id by nia. cbn [bind]. now replace (_ <? _) with true by lia. }
  assert (N : nth_error (api_frames s) k = None -> canvas_size s <= zlen target ->
     render_frame c inflate s (Z.of_nat k) target sel = Panic PIndex).
  { intros Hk Ht. destruct (made_canvas c s Hs) as [HW HH]. destruct Hfit as [HC _]. unfold render_frame.
    unfold canvas_size, canvas_width, canvas_height in *.
    rewrite usizec_id by nia. cbn [bind]. rewrite usizec_id by nia. cbn [bind]. replace (_ <? _) with false by lia.
    unfold get_index. replace (0 <=? Z.of_nat k) with true by lia. rewrite Nat2Z.id. unfold api_frames in Hk. now rewrite Hk. }
  split; [|exact N]. intros e t. destruct (Z.ltb_spec (zlen target) (canvas_size s)) as [Ht|Ht].
  - rewrite (E Ht). split; [intros [= <- <-]; auto|intros (_ & -> & ->); reflexivity].
  - split; [|intros (H & _); lia]. intro X. exfalso. destruct (nth_error (api_frames s) k) as [sf|] eqn:Hk.
    + rewrite (made_frame_eq c s Hs inflate Hfit sel k sf target Hk) in X. replace (_ <? _) with false in X by lia.
      pose proof (made_cels_outcome c s Hc Hs inflate Hinf Hfit sel _ (frames_fine c s Hs Hfit k sf Hk) target Hb Ht) as HO.
      rewrite X in HO. exact HO.
    + rewrite (N eq_refl Ht) in X. discriminate.
Qed.

(** ** Loaded sprites *)
Lemma loaded_typed c i s : cfg_ok c -> is_bytes i -> addressable c i -> load c i = Ok s ->
  typed c s /\ (sprite_fits c s -> made_fits c s).
Proof.
  intros Hc Hi Ha Hl.
  assert (HI : forall im, In im (af_images s) -> typed_image c im).
  { intros im Him. destruct (image_facts c i s Hc Hi Ha Hl im Him) as (W & H & B & _).
    split; [exact W|]. split; [exact H|]. split; [exact B|].
    assert (X : infix (im_data im) i).
    { apply (sprite_slices_infix c i s Hc Hi Ha Hl). unfold sprite_slices. rewrite !in_app_iff. right. right. right. now apply in_map. }
    destruct X as (a & b & ->). unfold addressable in *. rewrite !zlen_app in Ha.
    pose proof (zlen_nonneg a). pose proof (zlen_nonneg b). lia. }
  assert (HC : forall sf cel, In sf (af_frames s) -> In cel (sf_cels sf) -> typed_cel c cel).
  { intros sf cel Hsf Hcel. apply In_nth_error in Hsf. destruct Hsf as [k Hk].
    destruct (cel_ranges c i s Hc Hi Ha Hl k sf cel Hk Hcel) as (H1 & H2 & H3 & H4 & H5 & H6).
    unfold typed_cel. change (2 ^ 15) with 32768. change (2 ^ 16) with 65536.
    assert (H7 : fc_image_index cel < 2 ^ usize_bits c /\ 65536 <= 2 ^ usize_bits c).
    { destruct Hc as [E|E]; rewrite E in *; [change (256 ^ (32 / 8)) with (2 ^ 32) in H1|change (256 ^ (64 / 8)) with (2 ^ 64) in H1]; (split; [lia|vm_compute; discriminate]). }
    lia. }
  split.
  - destruct (canvas_facts c i s Hc Hi Ha Hl) as [W H]. split; [exact W|]. split; [exact H|]. split.
    { intros p Hp. split; [exact (palette_size c i s Hc Hi Ha Hl p Hp)|exact (palette_colors c i s Hc Hi Ha Hl p Hp)]. }
    split; [now apply Forall_forall|]. split; [apply Forall_forall; exact (layer_opacity c i s Hc Hi Ha Hl)|].
    apply Forall_forall. intros sf Hsf. apply Forall_forall. eauto.
  - intros [F1 F2]. split; [exact F1|]. rewrite Forall_forall in F2. destruct (usize_pos c Hc) as [_ HU]. split.
    + apply Forall_forall. intros im Him. destruct (F2 im Him) as [G1 G2]. split; [lia|exact G2].
    + apply Forall_forall. intros sf Hsf. apply Forall_forall. intros cel Hcel.
      apply In_nth_error in Hsf. destruct Hsf as [k Hk].
      pose proof (frame_cels_ok c i s Hc Hi Ha Hl k sf Hk) as G. rewrite Forall_forall in G.
      destruct (G cel Hcel) as (_ & im & Hj & E). unfold room. rewrite E. cbn [fst snd].
      destruct (F2 im (nth_error_In _ _ Hj)) as [G1 _]. exact G1.
Qed.

(** On 64-bit targets only the lengths of the data need a bound. *)
Lemma wide_made c s : usize_bits c = 64 -> typed c s ->
  Forall (fun im => zlen (im_data im) < 2 ^ 62) (af_images s) -> made_fits c s.
Proof.
  intros E (W & H & _ & HI & _ & HF) HD. unfold made_fits, canvas_size, sizes_fit, rgba_size, room. rewrite E.
  change (2 ^ 64) with 18446744073709551616. change (2 ^ (64 - 1)) with 9223372036854775808. change (2 ^ 62) with 4611686018427387904 in HD.
  change (2 ^ 16) with 65536 in *. split; [nia|]. rewrite Forall_forall in HI, HD, HF. split; apply Forall_forall.
  - intros im Him. destruct (HI im Him) as (H1 & H2 & _). change (2 ^ 16) with 65536 in *. specialize (HD im Him). split; [nia|]. cbv beta in HD. lia.
  - intros sf Hsf. specialize (HF sf Hsf). cbv beta in HF. rewrite Forall_forall in HF. apply Forall_forall. intros cel Hcel.
    destruct (HF cel Hcel) as (_ & _ & H1 & H2 & _). change (2 ^ 16) with 65536 in *. nia.
Qed.

(** ** Editing *)
Lemma with_visible_layer flags s k : nth_error (af_layers (with_visible flags s)) k =
  option_map (fun l => {| ly_name := ly_name l; ly_opacity := ly_opacity l; ly_blend_mode := ly_blend_mode l;
    ly_visible := nth k flags false; ly_layer_type := ly_layer_type l |}) (nth_error (af_layers s) k).
Proof.
  unfold with_visible. cbn [af_layers]. set (g := fun '(k, l) => _). 
  assert (G : forall ls a, nth_error (map g (combine (seq a (length ls)) ls)) k = option_map (fun l => g ((a + k)%nat, l)) (nth_error ls k)).
  { induction k as [|k IH]; intros [|l ls] a; cbn [length seq combine map nth_error option_map]; try reflexivity.
    - now rewrite Nat.add_0_r.
    - rewrite IH. now replace (S a + k)%nat with (a + S k)%nat by lia. }
  now rewrite G.
Qed.
Lemma fold_out_ext {E A B} (f g : A -> B -> out E A) l : (forall a b, In b l -> f a b = g a b) -> forall a, fold_out f l a = fold_out g l a.
Proof.
  induction l as [|b l IH]; intros H a; cbn [fold_out]; [reflexivity|]. rewrite (H a b (or_introl eq_refl)).
  destruct (g a b); cbn [bind]; [|reflexivity|reflexivity]. apply IH. intros. apply H. now right.
Qed.
Lemma visible_is_mask c inflate s flags k target :
  render_frame c inflate (with_visible flags s) k target SelVisible = render_frame c inflate s k target (SelMask flags).
Proof.
  unfold render_frame. change (af_file (with_visible flags s)) with (af_file s).
  change (af_frames (with_visible flags s)) with (af_frames s).
  destruct (usizec c _) as [n|?|?]; cbn [bind]; [|reflexivity..]. destruct (usizec c _) as [n'|?|?]; cbn [bind]; [|reflexivity..].
  destruct (_ <? _); [reflexivity|]. destruct (get_index _ _) as [fr|?|?]; cbn [bind]; [|reflexivity..].
  apply fold_out_ext. intros t cel _. unfold render_cel. rewrite with_visible_layer.
  destruct (nth_error (af_layers s) _) as [l|]; cbn [option_map]; [|reflexivity]. cbn [ly_layer_type ly_blend_mode ly_opacity].
  rewrite !chosen_is. unfold chosen. cbn [ly_visible].
  assert (E : nth (Z.to_nat (fc_layer_index cel)) flags false = match nth_error flags (Z.to_nat (fc_layer_index cel)) with Some b => b | None => false end).
  { generalize (Z.to_nat (fc_layer_index cel)). clear. induction flags as [|b flags IH]; intros [|n]; cbn; auto. }
  rewrite E. reflexivity.
Qed.

(** What a frame does not depend on *)
Lemma render_depends c inflate s s' k k' sf target sel :
  nth_error (api_frames s) k = Some sf -> nth_error (api_frames s') k' = Some sf ->
  same_canvas s s' -> f_palette (af_file s) = f_palette (af_file s') ->
  af_layers s = af_layers s' -> af_images s = af_images s' ->
  render_frame c inflate s (Z.of_nat k) target sel = render_frame c inflate s' (Z.of_nat k') target sel.
Proof.
  intros Hk Hk' (E1 & E2 & E3) Ep El Ei. unfold render_frame, canvas_width, canvas_height in *. rewrite <- E1, <- E2.
  destruct (usizec c _) as [n|?|?]; cbn [bind]; [|reflexivity..]. destruct (usizec c _) as [n'|?|?]; cbn [bind]; [|reflexivity..].
  destruct (_ <? _); [reflexivity|].
  rewrite (get_index_ok _ (Z.of_nat k) sf) by (rewrite ?Nat2Z.id; (assumption || lia)).
  rewrite (get_index_ok _ (Z.of_nat k') sf) by (rewrite ?Nat2Z.id; (assumption || lia)). cbn [bind].
  apply fold_out_ext. intros t cel _. unfold render_cel. rewrite <- El.
  assert (HL : forall j u, load_image c inflate s' j u = load_image c inflate s j u).
  { intros j u. unfold load_image. rewrite <- Ei. destruct (get_index _ _) as [im|?|?]; cbn [bind]; [|reflexivity..].
    destruct (usizec c _) as [a|?|?]; cbn [bind]; [|reflexivity..]. destruct (usizec c _) as [a'|?|?]; cbn [bind]; [|reflexivity..].
    unfold decode_image. rewrite <- E3, <- Ep. reflexivity. }
  destruct (nth_error (af_layers s) _) as [l|]; [|reflexivity]. destruct (_ || _); [reflexivity|].
  rewrite <- E1, <- E2.
  destruct (usizec c _) as [a|?|?]; cbn [bind]; [|reflexivity..]. destruct (usizec c _) as [a'|?|?]; cbn [bind]; [|reflexivity..].
  destruct (vec_zeroed c _) as [v|?|?]; cbn [bind]; [|reflexivity..]. now rewrite HL.
Qed.
