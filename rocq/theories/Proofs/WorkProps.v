(** What rendering does, counted. *)
From Verif.Model Require Import Work Inflate.
From Verif.Spec Require Import Bytes ImageSpec BlendSpec RenderSpec Made Work.
From Verif.Proofs Require Import RenderFacts RenderProps InflateFacts MadeProps MemoryProps.

(** ** The outcome is that of the model *)

Lemma snd_wbind {A B} (m : wout A) (k : A -> wout B) m' k' :
  snd m = m' -> (forall a, snd (k a) = k' a) -> snd (wbind m k) = bind m' k'.
Proof. intros <- H. unfold wbind, bind. destruct (snd m); cbn [snd]; auto. Qed.
Lemma snd_w_fold {A B} (f : A -> B -> wout A) f' : (forall a b, snd (f a b) = f' a b) ->
  forall l a, snd (w_fold f l a) = fold_out f' l a.
Proof.
  intros H. induction l as [|b l IH]; intros a; [reflexivity|]. cbn [w_fold fold_out].
  apply snd_wbind; auto.
Qed.
Lemma same_pixel c w h cel ct f o target y x :
  snd (w_render_pixel c w h cel ct f o target y x) = render_pixel c w h cel ct f o target y x.
Proof.
  unfold w_render_pixel, render_pixel. destruct (checked_add_signed16 x _); [|reflexivity].
  destruct (w <=? z); [reflexivity|]. destruct (checked_add_signed16 y _); [|reflexivity].
  destruct (h <=? z0); [reflexivity|].
  repeat (apply snd_wbind; [reflexivity|intros ?]). reflexivity.
Qed.
Lemma same_work_cel c inflate s sel target cel :
  snd (w_render_cel c inflate s sel target cel) = render_cel c inflate s sel target cel.
Proof.
  unfold w_render_cel, render_cel. destruct (nth_error _ _); [|reflexivity].
  destruct (_ || _); [reflexivity|].
  repeat (apply snd_wbind; [reflexivity|intros ?]).
  unfold w_render_pixels, render_pixels. apply snd_w_fold. intros t y. apply snd_w_fold. intros t' x.
  cbn [note snd]. apply same_pixel.
Qed.
Lemma same_work c inflate s k target sel :
  snd (w_render_frame c inflate s k target sel) = render_frame c inflate s k target sel.
Proof.
  unfold w_render_frame, render_frame.
  do 2 (apply snd_wbind; [reflexivity|intros ?]). destruct (_ <? _); [reflexivity|].
  apply snd_wbind; [reflexivity|intros fr]. apply snd_w_fold. apply same_work_cel.
Qed.

(** ** What is done, in order *)

(** The events are the first ones of [e], and all of them if nothing goes wrong. *)
Definition follows {A} (m : wout A) (e : list event) : Prop :=
  (exists r, e = fst m ++ r) /\ (forall a, snd m = Ok a -> fst m = e).

Lemma follows_quiet {A} (m : out _ A) : follows (quiet m) [].
Proof. split; [now exists []|reflexivity]. Qed.
Lemma follows_note {A} x (m : wout A) e : follows m e -> follows (note x m) (x :: e).
Proof. intros [[r ->] H]. split; [now exists r|]. intros a E. cbn [note fst snd] in *. now rewrite (H a E) at 1. Qed.
Lemma follows_bind {A B} (m : wout A) (k : A -> wout B) e1 e2 :
  follows m e1 -> (forall a, follows (k a) e2) -> follows (wbind m k) (e1 ++ e2).
Proof.
  intros [[r Hr] H] K. unfold wbind. destruct (snd m) as [a|e|p] eqn:E.
  - rewrite (H a eq_refl). destruct (K a) as [[r' ->] K2]. split.
    + exists r'. cbn [fst]. now rewrite app_assoc.
    + intros b Eb. cbn [fst snd] in *. now rewrite (K2 b Eb) at 1.
  - split; [exists (r ++ e2); cbn [fst]; rewrite Hr; now rewrite app_assoc|discriminate].
  - split; [exists (r ++ e2); cbn [fst]; rewrite Hr; now rewrite app_assoc|discriminate].
Qed.
Lemma follows_then {A B} (m : out _ A) (k : A -> wout B) e :
  (forall a, follows (k a) e) -> follows (wbind (quiet m) k) e.
Proof. intros K. change e with ([] ++ e). apply follows_bind; [apply follows_quiet|exact K]. Qed.
Lemma follows_fold {A B} (f : A -> B -> wout A) g l : (forall a b, In b l -> follows (f a b) (g b)) ->
  forall a, follows (w_fold f l a) (flat_map g l).
Proof.
  induction l as [|b l IH]; intros H a; [apply follows_quiet|]. cbn [w_fold flat_map].
  apply follows_bind; [apply H; now left|]. intros a'. apply IH. intros; apply H; now right.
Qed.

Definition pixel_work (s : ase_file) (cel : frame_cel) (y x : Z) : list event :=
  Round :: if inside s (x + fst (fc_origin cel)) (y + snd (fc_origin cel))
           then [Blended (x + fst (fc_origin cel)) (y + snd (fc_origin cel))] else [].
Definition cel_work (s : ase_file) (cel : frame_cel) : list event :=
  Loads (fc_image_index cel) ::
  flat_map (fun y => flat_map (pixel_work s cel y) (zrange (fst (fc_size cel)))) (zrange (snd (fc_size cel))).

Lemma pixel_follows c s cel ct f o target y x : canvas_width s < 2 ^ 16 -> canvas_height s < 2 ^ 16 ->
  follows (note Round (w_render_pixel c (canvas_width s) (canvas_height s) cel ct f o target y x)) (pixel_work s cel y x).
Proof.
  intros W H. apply follows_note. unfold w_render_pixel, checked_add_signed16, inside.
  set (X := x + _). set (Y := y + _). change (2 ^ 16) with 65536 in *.
  destruct (Z.leb_spec 0 X), (Z.ltb_spec X 65536), (Z.ltb_spec X (canvas_width s)); cbn [andb]; try lia;
    try apply follows_quiet;
    (destruct (Z.leb_spec (canvas_width s) X); [try lia; apply follows_quiet|try lia]).
  destruct (Z.leb_spec 0 Y), (Z.ltb_spec Y 65536), (Z.ltb_spec Y (canvas_height s)); cbn [andb]; try lia;
    try apply follows_quiet;
    (destruct (Z.leb_spec (canvas_height s) Y); [try lia; apply follows_quiet|try lia]).
  repeat (apply follows_then; intros ?).
  change [Blended X Y] with ([Blended X Y] ++ []). apply follows_bind; [|intros; apply follows_quiet].
  apply follows_note, follows_quiet.
Qed.

Lemma cel_follows c inflate s sel target cel : canvas_width s < 2 ^ 16 -> canvas_height s < 2 ^ 16 ->
  follows (w_render_cel c inflate s sel target cel)
    (match drawn s sel cel with Some _ => cel_work s cel | None => [] end).
Proof.
  intros W H. unfold w_render_cel, drawn. destruct (nth_error _ _) as [l|]; [|apply follows_quiet].
  rewrite chosen_is.
  assert (G : layer_type_eqb (ly_layer_type l) LGroup = match ly_layer_type l with LGroup => true | _ => false end)
    by (destruct (ly_layer_type l); reflexivity). rewrite G.
  assert (K : follows
    (let^ n := quiet (usizec c (fst (fc_size cel) * snd (fc_size cel))) in
      let^ n := quiet (usizec c (n * 4)) in
      let^ cel_target := quiet (vec_zeroed c n) in
      let^ cel_target := note (Loads (fc_image_index cel))
        (quiet (unwrap (load_image c inflate s (fc_image_index cel) cel_target))) in
      let^ f := quiet (lift (blend_mode_to_blend_fn c (ly_blend_mode l))) in
      w_render_pixels c (h_width (f_header (af_file s))) (h_height (f_header (af_file s)))
                    cel cel_target f (ly_opacity l) target) (cel_work s cel)).
  { do 3 (apply follows_then; intros ?). unfold cel_work.
    match goal with |- follows _ (?x :: ?e) => change (x :: e) with ([x] ++ e) end.
    apply follows_bind; [apply follows_note, follows_quiet|]. intros ct. apply follows_then. intros f.
    unfold w_render_pixels. apply follows_fold. intros t y _. apply follows_fold. intros t' x _.
    now apply pixel_follows. }
  destruct (ly_layer_type l); cbn [orb]; try apply follows_quiet;
    destruct (chosen _ _ _); cbn [negb]; try apply follows_quiet; exact K.
Qed.

Lemma flat_map_drawn s sel g cels :
  flat_map (fun cel => match drawn s sel cel with Some _ => g cel | None => [] end) cels = flat_map g (drawn_cels s sel cels) :> list event.
Proof.
  induction cels as [|cel cels IH]; [reflexivity|]. cbn [flat_map drawn_cels filter].
  destruct (drawn s sel cel); cbn [flat_map]; [f_equal|]; exact IH.
Qed.

Lemma frame_follows c inflate s k sf target sel : typed c s -> nth_error (af_frames s) k = Some sf ->
  follows (w_render_frame c inflate s (Z.of_nat k) target sel) (flat_map (cel_work s) (drawn_cels s sel (sf_cels sf))) .
Proof.
  intros ([_ W] & [_ H] & _) E. rewrite <- flat_map_drawn. unfold w_render_frame.
  do 2 (apply follows_then; intros ?).
  match goal with |- follows (if ?b then _ else _) ?e => destruct b end.
  { split; [now eexists|discriminate]. }
  replace (get_index (af_frames s) (Z.of_nat k)) with (@Ok (load_image_error * bytes) _ sf).
  2:{ unfold get_index. rewrite Nat2Z.id, E. assert (0 <=? Z.of_nat k = true) as -> by lia. reflexivity. }
  change (follows (let^ fr := quiet (Ok sf) in w_fold (w_render_cel c inflate s sel) (sf_cels fr) target)) with
    (follows (w_fold (w_render_cel c inflate s sel) (sf_cels sf) target)).
  apply follows_fold. intros t cel _. now apply cel_follows.
Qed.

(** ** Counting *)

Lemma how_many_app p a b : how_many p (a ++ b) = how_many p a + how_many p b.
Proof. unfold how_many, zlen. rewrite filter_app, app_length. lia. Qed.
Lemma how_many_flat {B} p (g : B -> list event) l : how_many p (flat_map g l) = zsum (fun b => how_many p (g b)) l.
Proof. induction l as [|b l IH]; [reflexivity|]. cbn [flat_map zsum fold_right]. now rewrite how_many_app, IH. Qed.
Lemma how_many_cons p x l : how_many p (x :: l) = (if p x then 1 else 0) + how_many p l.
Proof. unfold how_many, zlen. cbn [filter]. destruct (p x); cbn [length]; lia. Qed.
Lemma how_many_nonneg p l : 0 <= how_many p l.
Proof. unfold how_many, zlen. lia. Qed.
Lemma zsum_ext {B} (v w : B -> Z) l : (forall b, v b = w b) -> zsum v l = zsum w l.
Proof. intros H. induction l as [|b l IH]; [reflexivity|]. cbn [zsum fold_right]. rewrite H. f_equal. exact IH. Qed.
Lemma zsum_le {B} (v : B -> Z) n l : (forall b, v b <= n) -> zsum v l <= zlen l * n.
Proof.
  intros H. induction l as [|b l IH]; [unfold zlen; cbn; lia|]. unfold zlen in *. cbn [zsum fold_right length].
  fold (zsum v l). specialize (H b). nia.
Qed.
Lemma zsum_const {B} n (l : list B) : zsum (fun _ => n) l = zlen l * n.
Proof. induction l as [|b l IH]; [unfold zlen; cbn; lia|]. unfold zlen in *. cbn [zsum fold_right length]. fold (zsum (fun _ : B => n) l). nia. Qed.
Lemma zsum_scale {B} (v : B -> Z) n l : zsum (fun b => v b * n) l = zsum v l * n.
Proof. induction l as [|b l IH]; [reflexivity|]. cbn [zsum fold_right]. fold (zsum (fun b => v b * n) l) (zsum v l). nia. Qed.
Lemma zrange_snoc k : zrange (Z.of_nat (S k)) = zrange (Z.of_nat k) ++ [Z.of_nat k].
Proof. unfold zrange. rewrite !Nat2Z.id, seq_S, map_app. reflexivity. Qed.
Lemma zsum_app {B} (v : B -> Z) a b : zsum v (a ++ b) = zsum v a + zsum v b.
Proof. induction a as [|x a IH]; [reflexivity|]. cbn [app zsum fold_right]. fold (zsum v (a ++ b)) (zsum v a). lia. Qed.
Lemma zsum_pick (v : Z -> Z) x0 : (forall x, x <> x0 -> v x = 0) ->
  forall n, zsum v (zrange n) = if (0 <=? x0) && (x0 <? n) then v x0 else 0.
Proof.
  intros H n. destruct (Z.leb_spec n 0).
  { unfold zrange. replace (Z.to_nat n) with 0%nat by lia. cbn [seq map zsum fold_right].
    assert ((0 <=? x0) && (x0 <? n) = false) as -> by lia. reflexivity. }
  rewrite <- (Z2Nat.id n) by lia. generalize (Z.to_nat n) as k. clear n H0. induction k as [|k IH].
  { cbn [Z.of_nat]. assert ((0 <=? x0) && (x0 <? 0) = false) as -> by lia. reflexivity. }
  rewrite zrange_snoc, zsum_app, IH. cbn [zsum fold_right]. destruct (Z.eq_dec (Z.of_nat k) x0) as [E0|N].
  - rewrite E0. assert ((0 <=? x0) && (x0 <? x0) = false) as -> by lia.
    assert ((0 <=? x0) && (x0 <? Z.of_nat (S k)) = true) as -> by lia. lia.
  - rewrite (H _ N). replace (x0 <? Z.of_nat (S k)) with (x0 <? Z.of_nat k) by lia. lia.
Qed.
Lemma zsum_window W o : 0 <= W -> forall n, 0 <= n ->
  zsum (fun x => if (0 <=? x + o) && (x + o <? W) then 1 else 0) (zrange n) <= W.
Proof.
  intros HW n Hn.
  assert (E : zsum (fun x => if (0 <=? x + o) && (x + o <? W) then 1 else 0) (zrange n) = Z.max 0 (Z.min n (W - o) - Z.max 0 (- o))).
  { rewrite <- (Z2Nat.id n) by lia. generalize (Z.to_nat n) as k. clear n Hn. induction k as [|k IH].
    { change (zrange (Z.of_nat 0)) with (@nil Z). cbn [zsum fold_right]. lia. }
    rewrite zrange_snoc, zsum_app, IH. cbn [zsum fold_right].
    destruct (Z.leb_spec 0 (Z.of_nat k + o)), (Z.ltb_spec (Z.of_nat k + o) W); cbn [andb]; lia. }
  lia.
Qed.

Lemma zlen_zrange n : 0 <= n -> zlen (zrange n) = n.
Proof. intros H. unfold zlen, zrange. rewrite map_length, seq_length. lia. Qed.

Lemma cel_rounds s cel : 0 <= fst (fc_size cel) -> 0 <= snd (fc_size cel) -> rounds (cel_work s cel) = area cel.
Proof.
  intros W H. unfold rounds, cel_work. rewrite how_many_cons, how_many_flat.
  erewrite zsum_ext; [rewrite zsum_const|].
  - rewrite zlen_zrange by assumption. unfold area. instantiate (1 := fst (fc_size cel)). lia.
  - intros y. cbn beta. rewrite how_many_flat. erewrite zsum_ext; [rewrite zsum_const; rewrite zlen_zrange by assumption; instantiate (1 := 1); lia|].
    intros x. unfold pixel_work. rewrite how_many_cons. destruct (inside _ _ _); reflexivity.
Qed.

Lemma cel_blends_at s cel x y : blends_at x y (cel_work s cel) = if inside s x y && covers cel x y then 1 else 0.
Proof.
  unfold blends_at, cel_work. rewrite how_many_cons, how_many_flat. cbn [Z.add].
  set (p := fun e : event => match e with Blended x' y' => (x' =? x) && (y' =? y) | _ => false end). destruct (fc_origin cel) as [ox oy] eqn:EO. destruct (fc_size cel) as [w h] eqn:ES. cbn [fst snd].
  assert (P : forall y' x', how_many p (pixel_work s cel y' x') =
    if (x' =? x - ox) && (y' =? y - oy) && inside s x y then 1 else 0).
  { intros y' x'. unfold pixel_work. rewrite EO. cbn [fst snd]. rewrite how_many_cons. cbn [p].
    destruct (Z.eqb_spec x' (x - ox)) as [->|Nx]; cbn [andb].
    - destruct (Z.eqb_spec y' (y - oy)) as [->|Ny]; cbn [andb].
      + replace (x - ox + ox) with x by lia. replace (y - oy + oy) with y by lia. destruct (inside s x y); [|reflexivity].
        rewrite how_many_cons. unfold p. rewrite !Z.eqb_refl. reflexivity.
      + destruct (inside _ _ _); [|reflexivity]. rewrite how_many_cons. unfold p.
        assert (y' + oy =? y = false) as -> by lia. rewrite andb_false_r. reflexivity.
    - destruct (inside _ _ _); [|reflexivity]. rewrite how_many_cons. unfold p.
      assert (x' + ox =? x = false) as -> by lia. reflexivity. }
  rewrite (zsum_ext _ (fun y' => if (y' =? y - oy) && ((0 <=? x - ox) && (x - ox <? w)) && inside s x y then 1 else 0)).
  - rewrite (zsum_pick _ (y - oy)); [|intros y' N; assert (y' =? y - oy = false) as -> by lia; reflexivity].
    rewrite Z.eqb_refl. unfold covers. rewrite EO, ES. cbn [andb].
    replace (ox <=? x) with (0 <=? x - ox) by lia. replace (x <? ox + w) with (x - ox <? w) by lia.
    replace (oy <=? y) with (0 <=? y - oy) by lia. replace (y <? oy + h) with (y - oy <? h) by lia.
    destruct (0 <=? x - ox), (x - ox <? w), (0 <=? y - oy), (y - oy <? h), (inside s x y); reflexivity.
  - intros y'. rewrite how_many_flat. rewrite (zsum_ext _ _ _ (P y')).
    rewrite (zsum_pick _ (x - ox)); [|intros x' N; assert (x' =? x - ox = false) as -> by lia; reflexivity].
    rewrite Z.eqb_refl. destruct (0 <=? x - ox), (x - ox <? w), (y' =? y - oy), (inside s x y); reflexivity.
Qed.

Lemma cel_blends s cel : 0 <= canvas_width s -> 0 <= canvas_height s -> 0 <= fst (fc_size cel) -> 0 <= snd (fc_size cel) ->
  blends (cel_work s cel) <= canvas_width s * canvas_height s.
Proof.
  intros W H w h. unfold blends, cel_work. rewrite how_many_cons, how_many_flat. cbn [Z.add].
  set (p := fun e : event => match e with Blended _ _ => true | _ => false end).
  set (vx := fun x => if (0 <=? x + fst (fc_origin cel)) && (x + fst (fc_origin cel) <? canvas_width s) then 1 else 0).
  set (vy := fun y => if (0 <=? y + snd (fc_origin cel)) && (y + snd (fc_origin cel) <? canvas_height s) then 1 else 0).
  rewrite (zsum_ext _ (fun y => vy y * zsum vx (zrange (fst (fc_size cel))))).
  - rewrite zsum_scale. pose proof (zsum_window (canvas_width s) (fst (fc_origin cel)) W _ w) as A.
    pose proof (zsum_window (canvas_height s) (snd (fc_origin cel)) H _ h) as B. fold vx in A. fold vy in B.
    assert (0 <= zsum vx (zrange (fst (fc_size cel)))).
    { generalize (zrange (fst (fc_size cel))). induction l as [|x l IH]; [cbn; lia|]. cbn [zsum fold_right]. fold (zsum vx l).
      unfold vx at 1. destruct (_ && _); lia. }
    nia.
  - intros y. rewrite how_many_flat, Z.mul_comm, <- zsum_scale. apply zsum_ext. intros x.
    unfold pixel_work. rewrite how_many_cons. unfold inside, vx, vy.
    destruct (0 <=? x + _), (_ <? canvas_width s), (0 <=? y + _), (_ <? canvas_height s); reflexivity.
Qed.

Lemma cel_images s cel : images_loaded (cel_work s cel) = [fc_image_index cel].
Proof.
  unfold cel_work, images_loaded. cbn [flat_map app]. f_equal.
  induction (zrange (snd (fc_size cel))) as [|y l IH]; [reflexivity|]. cbn [flat_map]. rewrite flat_map_app, IH, app_nil_r.
  clear IH. induction (zrange (fst (fc_size cel))) as [|x l' IH]; [reflexivity|]. cbn [flat_map]. rewrite flat_map_app, IH, app_nil_r.
  unfold pixel_work. destruct (inside _ _ _); reflexivity.
Qed.

Lemma filter_sum {B} (p : B -> bool) l : zlen (filter p l) = zsum (fun b => if p b then 1 else 0) l.
Proof.
  induction l as [|b l IH]; [reflexivity|]. unfold zlen in *. cbn [filter zsum fold_right].
  fold (zsum (fun b => if p b then 1 else 0) l). destruct (p b); cbn [length]; lia.
Qed.

Lemma zsum_ext_in {B} (v w : B -> Z) l : Forall (fun b => v b = w b) l -> zsum v l = zsum w l.
Proof. induction 1 as [|b l E F IH]; [reflexivity|]. cbn [zsum fold_right]. rewrite E. f_equal. exact IH. Qed.

Lemma frame_rounds s cels : Forall (fun cel => 0 <= fst (fc_size cel) /\ 0 <= snd (fc_size cel)) cels ->
  rounds (flat_map (cel_work s) cels) = zsum area cels.
Proof.
  intros F. unfold rounds. rewrite how_many_flat. apply zsum_ext_in.
  eapply Forall_impl; [|exact F]. intros cel [A B]. now apply cel_rounds.
Qed.
Lemma frame_blends_at s x y cels : blends_at x y (flat_map (cel_work s) cels) = covering s cels x y.
Proof.
  unfold blends_at. rewrite how_many_flat. unfold covering.
  erewrite zsum_ext; [|intros cel; apply (cel_blends_at s cel x y)].
  destruct (inside s x y); cbn [andb]; [now rewrite filter_sum|]. rewrite zsum_const. lia.
Qed.
Lemma frame_images s cels : images_loaded (flat_map (cel_work s) cels) = map fc_image_index cels.
Proof.
  unfold images_loaded. induction cels as [|cel cels IH]; [reflexivity|]. cbn [flat_map map]. rewrite flat_map_app, IH.
  fold (images_loaded (cel_work s cel)). now rewrite cel_images.
Qed.
Lemma frame_blends c s cels : typed c s -> Forall (fun cel => 0 <= fst (fc_size cel) /\ 0 <= snd (fc_size cel)) cels ->
  blends (flat_map (cel_work s) cels) <= zlen cels * (canvas_width s * canvas_height s).
Proof.
  intros ([W _] & [H _] & _) F. unfold blends. rewrite how_many_flat. induction F as [|cel cels [A B] F IH]; [unfold zlen; cbn; lia|].
  unfold zlen in *. cbn [zsum fold_right length]. fold (zsum (fun b => how_many (fun e => match e with Blended _ _ => true | _ => false end) (cel_work s b)) cels).
  pose proof (cel_blends s cel W H A B) as K. unfold blends in K. nia.
Qed.

Lemma drawn_sizes c s k sf sel : typed c s -> nth_error (af_frames s) k = Some sf ->
  Forall (fun cel => 0 <= fst (fc_size cel) /\ 0 <= snd (fc_size cel)) (drawn_cels s sel (sf_cels sf)).
Proof.
  intros (_ & _ & _ & _ & _ & F) E. apply nth_error_In in E. rewrite Forall_forall in F. specialize (F _ E).
  apply Forall_forall. intros cel Hc. unfold drawn_cels in Hc. apply filter_In in Hc. destruct Hc as [Hc _].
  rewrite Forall_forall in F. destruct (F _ Hc) as (_ & _ & ? & ? & _). lia.
Qed.

Theorem work_done : forall c inflate s, typed c s ->
  forall k sf target sel, nth_error (af_frames s) k = Some sf ->
  let t := fst (w_render_frame c inflate s (Z.of_nat k) target sel) in
  let cels := drawn_cels s sel (sf_cels sf) in
  forall r, render_frame c inflate s (Z.of_nat k) target sel = Ok r ->
  rounds t = zsum area cels /\ (forall x y, blends_at x y t = covering s cels x y) /\
  images_loaded t = map fc_image_index cels.
Proof.
  intros c inflate s T k sf target sel E t cels r R.
  destruct (frame_follows c inflate s k sf target sel T E) as [_ F]. rewrite same_work in F. specialize (F r R).
  unfold t. rewrite F. split; [|split].
  - apply frame_rounds. eapply drawn_sizes; eassumption.
  - intros x y. apply frame_blends_at.
  - apply frame_images.
Qed.

Theorem work_bound : forall c inflate s, typed c s ->
  forall k sf target sel, nth_error (af_frames s) k = Some sf ->
  let t := fst (w_render_frame c inflate s (Z.of_nat k) target sel) in
  let cels := drawn_cels s sel (sf_cels sf) in
  rounds t <= zsum area cels /\ (forall x y, blends_at x y t <= covering s cels x y) /\
  blends t <= zlen cels * (canvas_width s * canvas_height s) /\
  (exists rest, map fc_image_index cels = images_loaded t ++ rest).
Proof.
  intros c inflate s T k sf target sel E t cels.
  destruct (frame_follows c inflate s k sf target sel T E) as [[rest F] _]. fold t cels in F.
  pose proof (drawn_sizes c s k sf sel T E) as D. fold cels in D.
  assert (B : forall p, how_many p t <= how_many p (flat_map (cel_work s) cels)).
  { intros p. rewrite F, how_many_app. pose proof (how_many_nonneg p rest). lia. }
  split; [|split; [|split]].
  - rewrite <- (frame_rounds s cels D). apply B.
  - intros x y. rewrite <- frame_blends_at. apply B.
  - etransitivity; [apply B|]. now apply (frame_blends c).
  - exists (images_loaded rest). rewrite <- (frame_images s), F. unfold images_loaded. now rewrite flat_map_app.
Qed.

(** ** A small file and a small canvas, and many rounds *)

Lemma how_many_mono (p q : event -> bool) t : (forall e, p e = true -> q e = true) -> how_many p t <= how_many q t.
Proof.
  intros H. induction t as [|e t IH]; [reflexivity|]. rewrite !how_many_cons. specialize (H e).
  destruct (p e); [rewrite H by reflexivity|destruct (q e)]; lia.
Qed.
Lemma work_unbounded : forall c, usize_bits c = 64 ->
  exists i s, is_bytes i /\ zlen i = 210 /\ load c i = Ok s /\ api_size s = (1, 1) /\
    render_frame c inflate_zlib s 0 [0; 0; 0; 0] SelAll = Ok [1; 2; 3; 4] /\
    let t := fst (w_render_frame c inflate_zlib s 0 [0; 0; 0; 0] SelAll) in
    rounds t = 4294836225 /\ blends t = 1 /\ images_loaded t = [0].
Proof.
  intros c H64. assert (Hc : cfg_ok c) by (right; exact H64).
  destruct (bomb_drawn_it c inflate_zlib H64 inflate_zlib_ok) as (s & im & Hb & Hn & Hl & Hsz & _ & _ & _ & R); [apply bomb_inflates; lia|].
  destruct (bomb_loads c H64) as (s' & Hl' & _ & _ & _ & sf & cel & l & Hf & Hcel & Hdr & Hcov & Hx & Hs & Ho & _).
  assert (s' = s) by congruence. subst s'.
  assert (Ha : addressable c bomb) by (unfold addressable; rewrite H64, Hn; reflexivity).
  destruct (loaded_typed c bomb s Hc Hb Ha Hl) as [T _].
  exists bomb, s. split; [exact Hb|]. split; [exact Hn|]. split; [exact Hl|]. split; [exact Hsz|]. split; [exact R|].
  assert (N : nth_error (af_frames s) 0 = Some sf) by (unfold api_frames in Hf; rewrite Hf; reflexivity).
  assert (D : drawn_cels s SelAll (sf_cels sf) = [cel]) by (rewrite Hcel; unfold drawn_cels; cbn [filter]; rewrite Hdr; reflexivity).
  assert (C : canvas_width s = 1 /\ canvas_height s = 1) by (unfold api_size in Hsz; injection Hsz; auto). destruct C as [W H].
  destruct (work_done c inflate_zlib s T 0 sf [0; 0; 0; 0] SelAll N _ R) as (A & B & I). rewrite D in A, B, I.
  destruct (work_bound c inflate_zlib s T 0 sf [0; 0; 0; 0] SelAll N) as (_ & _ & K & _). rewrite D, W, H in K.
  cbn zeta. split; [|split].
  - etransitivity; [exact A|]. cbn [zsum fold_right]. unfold area. rewrite Hs. reflexivity.
  - specialize (B 0 0). unfold covering, inside in B. rewrite W, H in B. cbn [filter] in B. rewrite Hcov in B. cbn in B.
    apply Z.le_antisymm; [exact K|]. rewrite <- B at 1. apply how_many_mono. intros []; auto.
  - etransitivity; [exact I|]. cbn [map]. now rewrite Hx.
Qed.
