(** Rendering, all loops counted. *)
From Coq Require Import Lia.
From Verif.Model Require Import RenderSteps.
From Verif.Spec Require Import Bytes ImageSpec BlendSpec RenderSpec Made Convert Work.
From Verif.Proofs Require Import ParseLib ImageFacts RenderFacts RenderProps LoaderProps MadeProps WorkProps LoadStepsProps ImageWorkProps.

Lemma same_k_cel c inflate s sel target cel : snd (k_render_cel c inflate s sel target cel) = render_cel c inflate s sel target cel.
Proof.
  unfold k_render_cel, render_cel. destruct (nth_error _ _); [|reflexivity]. destruct (_ || _); [reflexivity|].
  do 3 (apply snd_kbind; [reflexivity|intros ?]).
  apply snd_kbind; [unfold k_unwrap; cbn [snd]; now rewrite same_load_image|intros ?].
  apply snd_kbind; [reflexivity|intros ?]. unfold k_render_pixels, render_pixels.
  apply snd_k_fold. intros t y. apply snd_k_fold. reflexivity.
Qed.
Lemma same_k_frame c inflate s k target sel : snd (k_render_frame c inflate s k target sel) = render_frame c inflate s k target sel.
Proof.
  unfold k_render_frame, render_frame. do 2 (apply snd_kbind; [reflexivity|intros ?]). destruct (_ <? _); [reflexivity|].
  apply snd_kbind; [reflexivity|intros fr]. apply snd_k_fold, same_k_cel.
Qed.

(** At most [most] rounds; under [P], exactly [just] if all goes well. *)
Definition spends {E A} (P : Prop) (m : kout E A) (most just : Z) : Prop :=
  0 <= fst m <= most /\ (P -> forall r, snd m = Ok r -> fst m = just).
Lemma spends_plain {E A} P (m : out E A) : spends P (plain m) 0 0.
Proof. unfold spends, plain. cbn [fst snd]. split; [lia|reflexivity]. Qed.
Lemma spends_err {E A} P e most just : 0 <= most -> spends P (@plain E A (Err e)) most just.
Proof. unfold spends, plain. cbn [fst snd]. split; [lia|discriminate]. Qed.
Lemma spends_bind {E A B} P (m : kout E A) (k : A -> kout E B) a1 b1 a2 b2 : 0 <= a2 -> spends P m a1 b1 ->
  (forall a, snd m = Ok a -> spends P (k a) a2 b2) -> spends P (kbind m k) (a1 + a2) (b1 + b2).
Proof.
  intros H [M1 M2] K. unfold spends, kbind. destruct (snd m) as [a|e|p] eqn:S; cbn [fst snd].
  - destruct (K a eq_refl) as [K1 K2]. split; [lia|]. intros HP r X. rewrite (M2 HP a eq_refl), (K2 HP r X). reflexivity.
  - split; [lia|discriminate].
  - split; [lia|discriminate].
Qed.
Lemma spends_then {E A B} P (m : out E A) (k : A -> kout E B) most just : 0 <= most ->
  (forall a, m = Ok a -> spends P (k a) most just) -> spends P (kbind (plain m) k) most just.
Proof. intros H K. apply (spends_bind P _ _ 0 0 most just H (spends_plain P m) K). Qed.
Lemma zsum_nonneg {B} (w : B -> Z) l : (forall b, In b l -> 0 <= w b) -> 0 <= zsum w l.
Proof.
  induction l as [|b l IH]; intros H; [reflexivity|]. cbn [zsum fold_right]. fold (zsum w l).
  specialize (IH (fun x X => H x (or_intror X))). specialize (H b (or_introl eq_refl)). lia.
Qed.
Lemma spends_fold {E A B} P (f : A -> B -> kout E A) w v l : (forall b, In b l -> 0 <= w b) ->
  (forall a b, In b l -> spends P (f a b) (w b) (v b)) ->
  forall a, spends P (k_fold f l a) (zsum (fun b => 1 + w b) l) (zsum (fun b => 1 + v b) l).
Proof.
  induction l as [|b l IH]; intros W H a; [apply spends_plain|].
  change (k_fold f (b :: l) a) with (round (kbind (f a b) (k_fold f l))). cbn [zsum fold_right].
  fold (zsum (fun b => 1 + w b) l). fold (zsum (fun b => 1 + v b) l).
  assert (N : 0 <= zsum (fun b => 1 + w b) l) by (apply zsum_nonneg; intros x X; specialize (W x (or_intror X)); lia).
  assert (K : spends P (kbind (f a b) (k_fold f l)) (w b + zsum (fun b => 1 + w b) l) (v b + zsum (fun b => 1 + v b) l)).
  { apply spends_bind; [exact N|apply H; now left|]. intros a' _. apply IH; intros; [apply W|apply H]; now right. }
  destruct K as [K1 K2]. unfold spends, round. cbn [fst snd]. split; [lia|]. intros HP r X. specialize (K2 HP r X). lia.
Qed.

(** The target bounds the rounds of decoding. *)
Lemma image_target c inflate s j target : cfg_ok c -> Forall (typed_image c) (af_images s) ->
  0 <= fst (k_load_image c inflate s j target) <= zlen target / 4 + 1.
Proof.
  intros Hc T. pose proof (zlen_nonneg target) as Nt. assert (Nd : 0 <= zlen target / 4) by (apply Z.div_pos; lia).
  unfold k_load_image, kbind, plain. cbn [fst snd].
  destruct (get_index (af_images s) j) as [im|e|p] eqn:G; cbn [fst snd]; [|lia..].
  assert (Him : In im (af_images s)).
  { unfold get_index in G. destruct (0 <=? j); [|discriminate]. destruct (nth_error _ _) eqn:X; [|discriminate].
    injection G as <-. now apply nth_error_In in X. }
  rewrite Forall_forall in T. destruct (T im Him) as ([W0 _] & [H0 _] & _).
  assert (N : 0 <= im_width im * im_height im) by (apply Z.mul_nonneg_nonneg; assumption).
  destruct (usizec c (im_width im * im_height im)) as [n|e|p] eqn:U1; cbn [fst snd]; [|lia..].
  destruct (usizec c (n * 4)) as [ts|e|p] eqn:U2; cbn [fst snd]; [|lia..].
  pose proof (usizec_le _ _ _ Hc N U1) as [B1 B2]. assert (0 <= n * 4) as B3 by lia. pose proof (usizec_le _ _ _ Hc B3 U2) as [B4 B5].
  destruct (Z.ltb_spec (zlen target) ts); cbn [fst snd]; [lia|].
  set (t := firstn (Z.to_nat ts) target). assert (Lt : zlen t = ts) by (unfold t, zlen in *; rewrite firstn_length; lia).
  destruct (decode_count c inflate (af_file s) im t Hc) as [D1 _]. rewrite Lt in D1.
  assert (ts / 4 <= zlen target / 4) by (apply Z.div_le_mono; lia). lia.
Qed.

(** Rounds for a cel: lines, pixels, and the conversion of its image *)
Definition cel_just (s : ase_file) (cel : frame_cel) : Z :=
  snd (fc_size cel) + area cel + rounds_for (h_color_depth (f_header (af_file s))) (area cel).
Definition cel_most (cel : frame_cel) : Z := snd (fc_size cel) + area cel + (area cel + 1).
Lemma area_nonneg cel : 0 <= fst (fc_size cel) -> 0 <= snd (fc_size cel) -> 0 <= area cel.
Proof. apply Z.mul_nonneg_nonneg. Qed.

Lemma pixels_spends P c w h cel ct f o target : 0 <= fst (fc_size cel) -> 0 <= snd (fc_size cel) ->
  spends P (k_render_pixels c w h cel ct f o target) (snd (fc_size cel) + area cel) (snd (fc_size cel) + area cel).
Proof.
  intros A B. unfold k_render_pixels.
  replace (snd (fc_size cel) + area cel) with (zsum (fun _ : Z => 1 + fst (fc_size cel)) (zrange (snd (fc_size cel)))).
  2:{ rewrite zsum_const, zlen_zrange by assumption. unfold area. lia. }
  apply (spends_fold P _ (fun _ => fst (fc_size cel)) (fun _ => fst (fc_size cel))); [intros; assumption|].
  intros t y _.
  replace (fst (fc_size cel)) with (zsum (fun _ : Z => 1 + 0) (zrange (fst (fc_size cel)))) at 2 3.
  2:{ rewrite zsum_const, zlen_zrange by assumption. lia. }
  apply (spends_fold P _ (fun _ => 0) (fun _ => 0)); [intros; lia|]. intros. apply spends_plain.
Qed.

Lemma k_cel_spends c inflate s sel sf target cel : cfg_ok c -> typed c s -> In sf (af_frames s) -> In cel (sf_cels sf) ->
  spends (cels_fit_images s /\ Forall (fun cel => room cel < 2 ^ usize_bits c) (sf_cels sf))
    (k_render_cel c inflate s sel target cel)
    (match drawn s sel cel with Some _ => cel_most cel | None => 0 end)
    (match drawn s sel cel with Some _ => cel_just s cel | None => 0 end).
Proof.
  intros Hc T Isf Ic. pose proof T as (_ & _ & _ & TI & _ & F). rewrite Forall_forall in F. specialize (F _ Isf).
  rewrite Forall_forall in F. destruct (F _ Ic) as (_ & _ & [A _] & [B _] & _ & [J _]).
  pose proof (area_nonneg cel A B) as N.
  set (P := cels_fit_images s /\ Forall (fun cel => room cel < 2 ^ usize_bits c) (sf_cels sf)).
  unfold k_render_cel, drawn. destruct (nth_error (af_layers s) _) as [l|]; [|apply spends_plain].
  rewrite chosen_is.
  assert (G : layer_type_eqb (ly_layer_type l) LGroup = match ly_layer_type l with LGroup => true | _ => false end)
    by (destruct (ly_layer_type l); reflexivity). rewrite G.
  assert (K : spends P
    (let% n := plain (usizec c (fst (fc_size cel) * snd (fc_size cel))) in
      let% n := plain (usizec c (n * 4)) in
      let% cel_target := plain (vec_zeroed c n) in
      let% cel_target := k_unwrap (k_load_image c inflate s (fc_image_index cel) cel_target) in
      let% f := plain (lift (blend_mode_to_blend_fn c (ly_blend_mode l))) in
      k_render_pixels c (h_width (f_header (af_file s))) (h_height (f_header (af_file s)))
                    cel cel_target f (ly_opacity l) target) (cel_most cel) (cel_just s cel)).
  { assert (M : 0 <= cel_most cel) by (unfold cel_most; lia).
    apply spends_then; [exact M|]. intros n U1. apply spends_then; [exact M|]. intros n4 U2.
    apply spends_then; [exact M|]. intros ct V.
    pose proof (usizec_le _ _ _ Hc N U1) as [B1 B2]. assert (0 <= n * 4) as B3 by lia. pose proof (usizec_le _ _ _ Hc B3 U2) as [B4 B5].
    assert (Lc : zlen ct = n4).
    { unfold vec_zeroed in V. destruct (_ <? _); [|discriminate]. injection V as <-. unfold zlen. rewrite repeat_length. lia. }
    unfold cel_most, cel_just. rewrite (Z.add_comm _ (area cel + 1)), (Z.add_comm _ (rounds_for _ _)).
    apply spends_bind; [lia| |].
    - pose proof (image_target c inflate s (fc_image_index cel) ct Hc TI) as I. rewrite Lc in I.
      assert (n4 / 4 <= area cel) by (apply Z.div_le_upper_bound; lia).
      unfold spends, k_unwrap. cbn [fst snd]. split; [lia|]. intros [P1 P2] r X.
      rewrite same_load_image in X. destruct (load_image c inflate s (fc_image_index cel) ct) as [y|e|p] eqn:L; try discriminate.
      destruct (nth_error (af_images s) (Z.to_nat (fc_image_index cel))) as [im|] eqn:Im.
      2:{ unfold load_image, get_index in L. rewrite Im in L. destruct (0 <=? fc_image_index cel); discriminate. }
      destruct (image_count c inflate s _ im ct Hc T Im) as (_ & _ & C3). rewrite Z2Nat.id in C3 by exact J.
      specialize (P1 _ _ _ Isf Ic Im). rewrite Forall_forall in P2. specialize (P2 _ Ic). unfold room in P2.
      unfold area in *. rewrite P1 in *. unfold image_size in *. cbn [fst snd] in *. apply (C3 P2 y L).
    - intros ct' _. apply spends_then; [lia|]. intros f _. now apply pixels_spends. }
  destruct (ly_layer_type l); cbn [orb]; try apply spends_plain;
    destruct (chosen _ _ _); cbn [negb]; try apply spends_plain; exact K.
Qed.

Lemma zsum_drawn s sel v cels :
  zsum (fun cel => 1 + match drawn s sel cel with Some _ => v cel | None => 0 end) cels = zlen cels + zsum v (drawn_cels s sel cels).
Proof.
  induction cels as [|cel cels IH]; [reflexivity|]. rewrite zlen_cons. cbn [zsum drawn_cels fold_right filter].
  fold (zsum (fun cel => 1 + match drawn s sel cel with Some _ => v cel | None => 0 end) cels). rewrite IH.
  destruct (drawn s sel cel); cbn [fold_right]; unfold zsum, drawn_cels; lia.
Qed.

Theorem render_steps : forall c inflate s, cfg_ok c -> typed c s ->
  forall k sf target sel, nth_error (af_frames s) k = Some sf ->
  let m := k_render_frame c inflate s (Z.of_nat k) target sel in
  let cels := drawn_cels s sel (sf_cels sf) in
  snd m = render_frame c inflate s (Z.of_nat k) target sel /\
  0 <= fst m <= zlen (sf_cels sf) + zsum (fun cel => snd (fc_size cel) + area cel + (area cel + 1)) cels /\
  (cels_fit_images s -> Forall (fun cel => room cel < 2 ^ usize_bits c) (sf_cels sf) ->
   forall r, render_frame c inflate s (Z.of_nat k) target sel = Ok r ->
   fst m = zlen (sf_cels sf) + zsum (fun cel => snd (fc_size cel) + area cel +
     match h_color_depth (f_header (af_file s)) with Grayscale | Indexed => area cel | _ => 0 end) cels).
Proof.
  intros c inflate s Hc T k sf target sel E. cbn zeta. split; [apply same_k_frame|]. rewrite <- same_k_frame.
  pose proof (nth_error_In _ _ E) as Isf.
  assert (W : forall cel, In cel (sf_cels sf) -> 0 <= match drawn s sel cel with Some _ => cel_most cel | None => 0 end).
  { pose proof T as (_ & _ & _ & _ & _ & F). rewrite Forall_forall in F. specialize (F _ Isf). rewrite Forall_forall in F.
    intros cel Ic. destruct (F _ Ic) as (_ & _ & [A _] & [B _] & _). pose proof (area_nonneg cel A B).
    unfold cel_most. destruct (drawn s sel cel); lia. }
  enough (S : spends (cels_fit_images s /\ Forall (fun cel => room cel < 2 ^ usize_bits c) (sf_cels sf))
    (k_render_frame c inflate s (Z.of_nat k) target sel)
    (zlen (sf_cels sf) + zsum cel_most (drawn_cels s sel (sf_cels sf)))
    (zlen (sf_cels sf) + zsum (cel_just s) (drawn_cels s sel (sf_cels sf)))).
  { destruct S as [S1 S2]. split; [exact S1|]. intros P1 P2. exact (S2 (conj P1 P2)). }
  rewrite <- !zsum_drawn.
  match goal with |- spends _ _ ?a _ => assert (N : 0 <= a) by (apply zsum_nonneg; intros b X; specialize (W b X); lia) end.
  unfold k_render_frame. do 2 (apply spends_then; [exact N|intros ? _]).
  match goal with |- spends _ (if ?b then _ else _) _ _ => destruct b end; [now apply spends_err|].
  apply spends_then; [exact N|]. intros fr G.
  assert (fr = sf) as ->.
  { unfold get_index in G. rewrite Nat2Z.id, E in G. destruct (0 <=? Z.of_nat k); congruence. }
  apply spends_fold; [exact W|]. intros t cel Ic. now apply k_cel_spends.
Qed.

Theorem loaded_steps : forall c inflate i s, usize_bits c = 64 -> is_bytes i -> addressable c i -> load c i = Ok s ->
  forall k sf target sel, nth_error (af_frames s) k = Some sf ->
  forall r, render_frame c inflate s (Z.of_nat k) target sel = Ok r ->
  fst (k_render_frame c inflate s (Z.of_nat k) target sel) =
    zlen (sf_cels sf) + zsum (fun cel => snd (fc_size cel) + area cel +
      match h_color_depth (f_header (af_file s)) with Grayscale | Indexed => area cel | _ => 0 end) (drawn_cels s sel (sf_cels sf)).
Proof.
  intros c inflate i s Hb Hi Ha L k sf target sel E r X. assert (Hc : cfg_ok c) by now right.
  destruct (loaded_typed c i s Hc Hi Ha L) as [T _].
  destruct (render_steps c inflate s Hc T k sf target sel E) as (_ & _ & R). refine (R _ _ r X).
  - intros f cel im If Ic Im. destruct (cel_valid c i s L f cel If Ic) as (_ & im' & Im' & ->).
    rewrite Im in Im'. now injection Im' as <-.
  - destruct T as (_ & _ & _ & _ & _ & F). rewrite Forall_forall in F. specialize (F _ (nth_error_In _ _ E)).
    rewrite Forall_forall in *. intros cel Ic. destruct (F _ Ic) as (_ & _ & A & B & _). unfold room. rewrite Hb. nia.
Qed.
