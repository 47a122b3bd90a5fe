(** Rendering one cel. *)
From Verif.Model Require Import Loader.
From Verif.Spec Require Import Bytes Format ImageSpec BlendSpec RenderSpec.
From Verif.Proofs Require Import ParseLib ImageFacts.
From Coq Require FinFun.

(** ** Pixels of a buffer *)
Definition at_px (t : bytes) (k : nat) : px :=
  mkpx (nth (4 * k) t 0) (nth (4 * k + 1) t 0) (nth (4 * k + 2) t 0) (nth (4 * k + 3) t 0).
Definition put (t : bytes) (k : nat) (p : px) : bytes :=
  upd (upd (upd (upd t (4 * k) (pr p)) (4 * k + 1) (pg p)) (4 * k + 2) (pb p)) (4 * k + 3) (pa p).

Lemma upd_length {A} (l : list A) : forall k x, length (upd l k x) = length l.
Proof. induction l as [|y l IH]; intros [|k] x; cbn; auto. Qed.
Lemma upd_nth {A} (l : list A) (d : A) : forall k j x, nth j (upd l k x) d = if (j =? k)%nat && (j <? length l)%nat then x else nth j l d.
Proof.
  induction l as [|y l IH]; intros [|k] [|j] x; cbn [upd nth length]; try reflexivity.
  - rewrite andb_comm. reflexivity.
  - apply IH.
Qed.
Lemma upd_nth_error {A} (l : list A) : forall k j x, j <> k -> nth_error (upd l k x) j = nth_error l j.
Proof. induction l as [|y l IH]; intros [|k] [|j] x H; cbn; try reflexivity; try congruence. apply IH. congruence. Qed.

Lemma put_length t k p : length (put t k p) = length t.
Proof. unfold put. now rewrite !upd_length. Qed.
Lemma put_same t k p : (4 * k + 4 <= length t)%nat -> at_px (put t k p) k = p.
Proof.
  intro H. unfold at_px, put. rewrite !upd_nth, !upd_length.
  repeat match goal with |- context [(?a =? ?b)%nat] => first [rewrite (proj2 (Nat.eqb_eq a b)) by lia | rewrite (proj2 (Nat.eqb_neq a b)) by lia] end.
  repeat match goal with |- context [(?a <? ?b)%nat] => rewrite (proj2 (Nat.ltb_lt a b)) by lia end.
  cbn [andb]. now destruct p.
Qed.
Lemma put_other t k j p : j <> k -> at_px (put t k p) j = at_px t j.
Proof.
  intro H. unfold at_px, put. rewrite !upd_nth.
  repeat match goal with |- context [(?a =? ?b)%nat] => rewrite (proj2 (Nat.eqb_neq a b)) by lia end.
  cbn [andb]. reflexivity.
Qed.
Lemma put_nth_error t k p n : (n < 4 * k \/ 4 * k + 4 <= n)%nat -> nth_error (put t k p) n = nth_error t n.
Proof. intro H. unfold put. rewrite !upd_nth_error by lia. reflexivity. Qed.

Lemma set_index_upd {E A} (l : list A) k x : (k < length l)%nat -> @set_index E A l (Z.of_nat k) x = Ok (upd l k x).
Proof.
  intro H. unfold set_index, zlen. replace ((0 <=? Z.of_nat k) && (Z.of_nat k <? Z.of_nat (length l))) with true by lia.
  now rewrite Nat2Z.id.
Qed.
Lemma set4_put {E} t k p : (4 * k + 4 <= length t)%nat ->
  @set4 E t (4 * Z.of_nat k) (pr p) (pg p) (pb p) (pa p) = Ok (put t k p).
Proof.
  intro H. unfold set4, put.
  replace (4 * Z.of_nat k) with (Z.of_nat (4 * k)) by lia. rewrite set_index_upd by lia. cbn [bind].
  replace (Z.of_nat (4 * k) + 1) with (Z.of_nat (4 * k + 1)) by lia. rewrite set_index_upd by (rewrite upd_length; lia). cbn [bind].
  replace (Z.of_nat (4 * k) + 2) with (Z.of_nat (4 * k + 2)) by lia. rewrite set_index_upd by (rewrite !upd_length; lia). cbn [bind].
  replace (Z.of_nat (4 * k) + 3) with (Z.of_nat (4 * k + 3)) by lia. rewrite set_index_upd by (rewrite !upd_length; lia). reflexivity.
Qed.

Lemma skipn_nth {A} (d : A) (l : list A) : forall n, (n < length l)%nat -> skipn n l = nth n l d :: skipn (S n) l.
Proof. induction l as [|x l IH]; intros [|n] H; cbn [length] in H; try lia; [reflexivity|]. cbn [skipn nth]. apply IH. lia. Qed.
Lemma quad_at t k : (4 * k + 4 <= length t)%nat ->
  quad t k = Some (pr (at_px t k), pg (at_px t k), pb (at_px t k), pa (at_px t k)).
Proof.
  intro H. unfold quad. rewrite (skipn_nth 0) by lia. rewrite (skipn_nth 0 t (S _)) by lia.
  rewrite (skipn_nth 0 t (S (S _))) by lia. rewrite (skipn_nth 0 t (S (S (S _)))) by lia.
  unfold at_px. cbn [pr pg pb pa mkpx]. rewrite !Nat.add_succ_r, !Nat.add_0_r. reflexivity.
Qed.
Lemma px_from_four {E} c r g b a : @px_from_u8 E c [r; g; b; a] = Ok (mkpx r g b a).
Proof. unfold px_from_u8. destruct (debug c); reflexivity. Qed.
Lemma slice_px {E} c t k : (4 * k + 4 <= length t)%nat ->
  exists v, @slice_range E Z t (Z.of_nat (4 * k)) (Z.of_nat (4 * k) + 4) = Ok v /\ @px_from_u8 E c v = Ok (at_px t k).
Proof.
  intro H. unfold slice_range, zlen.
  replace ((0 <=? _) && (Z.of_nat (4 * k) <=? _) && (_ <=? Z.of_nat (length t))) with true by lia.
  replace (Z.of_nat (4 * k) + 4 - Z.of_nat (4 * k)) with 4 by lia. rewrite Nat2Z.id. eexists. split; [reflexivity|].
  rewrite (skipn_nth 0) by lia. rewrite (skipn_nth 0 t (S _)) by lia.
  rewrite (skipn_nth 0 t (S (S _))) by lia. rewrite (skipn_nth 0 t (S (S (S _)))) by lia.
  change (Z.to_nat 4) with 4%nat. cbn [firstn]. rewrite px_from_four.
  unfold at_px. rewrite !Nat.add_succ_r, !Nat.add_0_r. reflexivity.
Qed.

Lemma bytes_nth t k : is_bytes t -> is_byte (nth k t 0).
Proof.
  intro H. destruct (nth_in_or_default k t 0) as [Hin| ->]; [|unfold is_byte; lia].
  unfold is_bytes in H. rewrite Forall_forall in H. now apply H.
Qed.
Lemma at_px_byte t k : is_bytes t -> is_px (at_px t k).
Proof. intro H. split; [|split; [|split]]; now apply bytes_nth. Qed.
Lemma upd_bytes t k x : is_bytes t -> is_byte x -> is_bytes (upd t k x).
Proof.
  intros H Hx. revert k. induction H as [|y t Hy Ht IH]; intros [|k]; cbn; constructor; auto. apply IH.
Qed.
Lemma put_bytes t k p : is_bytes t -> is_px p -> is_bytes (put t k p).
Proof. intros H (H1 & H2 & H3 & H4). unfold put. now repeat apply upd_bytes. Qed.

(** ** The loops *)
Lemma fold_out_app {E A B} (f : A -> B -> out E A) l1 : forall l2 a,
  fold_out f (l1 ++ l2) a = bind (fold_out f l1 a) (fun a => fold_out f l2 a).
Proof.
  induction l1 as [|b l1 IH]; intros l2 a; cbn [app fold_out bind]; [reflexivity|].
  destruct (f a b) as [a'|e|p]; cbn [bind]; [apply IH|reflexivity|reflexivity].
Qed.
Lemma fold_nested {E A B C} (f : A -> B -> C -> out E A) (g : B -> list C) l : forall a,
  fold_out (fun a y => fold_out (fun a x => f a y x) (g y) a) l a =
  fold_out (fun a '(y, x) => f a y x) (flat_map (fun y => map (fun x => (y, x)) (g y)) l) a.
Proof.
  induction l as [|y l IH]; intro a; cbn [fold_out flat_map]; [reflexivity|].
  rewrite fold_out_app. replace (fold_out (fun a '(y, x) => f a y x) (map (fun x => (y, x)) (g y)) a) with (fold_out (fun a x => f a y x) (g y) a).
  - destruct (fold_out (fun a x => f a y x) (g y) a); cbn [bind]; [apply IH|reflexivity|reflexivity].
  - clear. revert a. induction (g y) as [|x l IH]; intro a; cbn [map fold_out]; [reflexivity|].
    destruct (f a y x); cbn [bind]; [apply IH|reflexivity|reflexivity].
Qed.

(** A loop whose steps each blend something onto a pixel of their own. *)
Section Writes.
Context {E B : Type} (idx : B -> option nat) (val : B -> px -> bout px) (len : nat).
Context (step : bytes -> B -> out E bytes).
Context (Hidx : forall b k, idx b = Some k -> (4 * k + 4 <= len)%nat).

Definition step_as (t : bytes) (b : B) : out E bytes :=
  match idx b with
  | None => Ok t
  | Some k => match val b (at_px t k) with
              | Ok p => Ok (put t k p)
              | Err e => match e with end
              | Panic q => Panic q
              end
  end.
Context (l : list B).
Context (Hstep : forall t b, length t = len -> In b l -> step t b = step_as t b).

Definition indices (l : list B) : list nat := flat_map (fun b => match idx b with Some k => [k] | None => [] end) l.

Lemma writes_go : forall l', (forall b, In b l' -> In b l) -> NoDup (indices l') -> forall t, length t = len ->
  match fold_out step l' t with
  | Ok t' => length t' = len /\
      (forall n, (forall k, In k (indices l') -> n < 4 * k \/ 4 * k + 4 <= n)%nat -> nth_error t' n = nth_error t n) /\
      (forall k, ~ In k (indices l') -> at_px t' k = at_px t k) /\
      (forall b k, In b l' -> idx b = Some k -> val b (at_px t k) = Ok (at_px t' k))
  | Err _ => False
  | Panic q => exists b k, In b l' /\ idx b = Some k /\ val b (at_px t k) = Panic q
  end.
Proof.
  induction l' as [|b l' IH]; intros Hl ND t Ht; cbn [fold_out].
  { split; [exact Ht|]. split; [reflexivity|]. split; [reflexivity|]. intros b k []. }
  rewrite Hstep by (assumption || (apply Hl; now left)). unfold step_as.
  assert (Hl' : forall x, In x l' -> In x l) by (intros x Hx; apply Hl; now right).
  change (indices (b :: l')) with ((match idx b with Some k => [k] | None => [] end) ++ indices l') in *.
  destruct (idx b) as [k|] eqn:Ek; cbn [app] in *.
  - apply NoDup_cons_iff in ND as [Hk ND'].
    destruct (val b (at_px t k)) as [p|[]|q] eqn:Ev; cbn [bind]; [|now exists b, k; repeat split; [left|..]].
    pose proof (Hidx _ _ Ek) as Hlen.
    specialize (IH Hl' ND' (put t k p) (eq_trans (put_length t k p) Ht)).
    assert (Hother : forall j, In j (indices l') -> at_px (put t k p) j = at_px t j).
    { intros j Hj. apply put_other. intros ->. contradiction. }
    assert (Hin : forall b' j, In b' l' -> idx b' = Some j -> In j (indices l')).
    { intros b' j Hb Ej. apply in_flat_map. exists b'. split; [exact Hb|]. rewrite Ej. now left. }
    destruct (fold_out step l' (put t k p)) as [t'|e|q].
    + destruct IH as (L & N & O & V). split; [exact L|]. split; [|split].
      * intros n Hn. rewrite N by (intros j Hj; apply Hn; now right). apply put_nth_error. apply Hn. now left.
      * intros j Hj. rewrite O by (intro; apply Hj; now right). apply put_other. intros ->. apply Hj. now left.
      * intros b' j [<-|Hb] Ej.
        -- assert (j = k) as -> by congruence. rewrite Ev. f_equal. rewrite O by exact Hk. now rewrite put_same by lia.
        -- rewrite <- (V b' j Hb Ej). f_equal. symmetry. apply Hother, (Hin b'); assumption.
    + exact IH.
    + destruct IH as (b' & j & Hb & Ej & Hv). exists b', j. split; [now right|]. split; [exact Ej|].
      rewrite <- Hv. f_equal. symmetry. apply Hother, (Hin b'); assumption.
  - cbn [bind]. specialize (IH Hl' ND t Ht). destruct (fold_out step l' t) as [t'|e|q].
    + destruct IH as (L & N & O & V). split; [exact L|]. split; [exact N|]. split; [exact O|].
      intros b' j [<-|Hb] Ej; [congruence|now apply V].
    + exact IH.
    + destruct IH as (b' & j & Hb & Ej & Hv). exists b', j. split; [now right|]. auto.
Qed.
End Writes.

Lemma zrange_in n x : In x (zrange n) <-> 0 <= x < n.
Proof.
  unfold zrange. rewrite in_map_iff. split.
  - intros (k & <- & H). apply in_seq in H. lia.
  - intro H. exists (Z.to_nat x). split; [lia|]. apply in_seq. lia.
Qed.
Lemma zrange_nodup n : NoDup (zrange n).
Proof. unfold zrange. apply FinFun.Injective_map_NoDup; [intros a b; lia|]. apply seq_NoDup. Qed.

Lemma index_bound W' H' x y : 0 <= x < W' -> 0 <= y < H' -> 0 <= y * W' + x < W' * H'.
Proof. nia. Qed.

Lemma pixel_at_px W' H' t x y : 0 <= x < W' -> 0 <= y < H' -> W' * H' * 4 <= zlen t ->
  pixel W' t x y = Some (at_px t (Z.to_nat (y * W' + x))).
Proof.
  intros Hx Hy Ht. pose proof (index_bound W' H' x y Hx Hy). unfold pixel.
  rewrite quad_at by (unfold zlen in Ht; lia). destruct (at_px _ _). reflexivity.
Qed.

(** ** One cel *)
Section Cel.
Context (c : cfg) (W H : Z) (cel : frame_cel) (img : bytes) (f : blend_fn) (op : Z).
Context (HW : 0 <= W < 65536) (HH : 0 <= H < 65536) (Hc : cfg_ok c).
Context (HWH : W * H * 4 < 2 ^ usize_bits c).
Let w := fst (fc_size cel).
Let h := snd (fc_size cel).
Let ox := fst (fc_origin cel).
Let oy := snd (fc_origin cel).
Context (Hw : 0 <= w) (Hh : 0 <= h) (Hwh : w * h * 4 < 2 ^ usize_bits c).
Context (Himg : zlen img = w * h * 4).

(** Where the cel pixel [(y, x)] goes. *)
Definition dest (yx : Z * Z) : option nat :=
  let (y, x) := yx in
  if (0 <=? x + ox) && (x + ox <? W) && (0 <=? y + oy) && (y + oy <? H)
  then Some (Z.to_nat ((y + oy) * W + (x + ox))) else None.
Definition coords : list (Z * Z) := flat_map (fun y => map (fun x => (y, x)) (zrange w)) (zrange h).

Lemma in_coords y x : In (y, x) coords <-> 0 <= x < w /\ 0 <= y < h.
Proof.
  unfold coords. rewrite in_flat_map. split.
  - intros (y' & Hy & Hx). apply in_map_iff in Hx as (x' & [= -> ->] & Hx). apply zrange_in in Hx, Hy. auto.
  - intros [Hx Hy]. exists y. split; [now apply zrange_in|]. apply in_map_iff. exists x. split; [reflexivity|now apply zrange_in].
Qed.

Definition source (yx : Z * Z) : px := let (y, x) := yx in at_px img (Z.to_nat (y * w + x)).
Definition cel_val (yx : Z * Z) (back : px) : bout px := f back (source yx) op.

Lemma step_eq t yx : W * H * 4 <= zlen t -> In yx coords ->
  render_pixel c W H cel img f op t (fst yx) (snd yx) = step_as dest cel_val t yx.
Proof.
  destruct yx as [y x]. cbn [fst snd]. intros Ht Hin. apply in_coords in Hin as [Hx Hy].
  unfold render_pixel, step_as, dest, checked_add_signed16. fold ox oy w.
  destruct (Z.leb_spec 0 (x + ox)) as [H1|H1]; cbn [andb]; [|reflexivity].
  destruct (Z.ltb_spec (x + ox) W) as [H2|H2]; cbn [andb].
  2:{ destruct (x + ox <? 65536); [|reflexivity]. now replace (W <=? x + ox) with true by lia. }
  replace (x + ox <? 65536) with true by lia. replace (W <=? x + ox) with false by lia.
  destruct (Z.leb_spec 0 (y + oy)) as [H3|H3]; cbn [andb]; [|reflexivity].
  destruct (Z.ltb_spec (y + oy) H) as [H4|H4].
  2:{ destruct (y + oy <? 65536); [|reflexivity]. now replace (H <=? y + oy) with true by lia. }
  replace (y + oy <? 65536) with true by lia. replace (H <=? y + oy) with false by lia.
  pose proof (index_bound W H (x + ox) (y + oy) ltac:(lia) ltac:(lia)) as B1.
  pose proof (index_bound w h x y ltac:(lia) ltac:(lia)) as B2.
  assert (0 <= (y + oy) * W) by nia. assert (0 <= y * w) by nia.
  rewrite usizec_id by lia. cbn [bind]. rewrite usizec_id by lia. cbn [bind].
  rewrite usizec_id by lia. cbn [bind]. rewrite usizec_id by lia. cbn [bind].
  rewrite usizec_id by lia. cbn [bind]. rewrite usizec_id by lia. cbn [bind].
  set (ti := (y + oy) * W + (x + ox)) in *. set (ci := y * w + x) in *.
  assert (Lt : (4 * Z.to_nat ti + 4 <= length t)%nat) by (unfold zlen in Ht; lia).
  assert (Li : (4 * Z.to_nat ci + 4 <= length img)%nat) by (unfold zlen in Himg; lia).
  destruct (@slice_px (load_image_error * bytes) c img _ Li) as (vi & E1 & E2).
  destruct (@slice_px (load_image_error * bytes) c t _ Lt) as (vt & E3 & E4).
  replace (ci * 4) with (Z.of_nat (4 * Z.to_nat ci)) by lia. rewrite E1. cbn [bind].
  rewrite usizec_id by lia. cbn [bind]. rewrite usizec_id by lia. cbn [bind].
  replace (ti * 4) with (Z.of_nat (4 * Z.to_nat ti)) by lia. rewrite E3. cbn [bind]. rewrite E4. cbn [bind]. rewrite E2. cbn [bind].
  unfold cel_val, source. fold ci. destruct (f _ _ op) as [p|[]|q]; cbn [lift bind]; [|reflexivity].
  replace (Z.of_nat (4 * Z.to_nat ti)) with (4 * Z.of_nat (Z.to_nat ti)) by lia. now apply set4_put.
Qed.

Lemma dest_some y x k : dest (y, x) = Some k ->
  0 <= x + ox < W /\ 0 <= y + oy < H /\ k = Z.to_nat ((y + oy) * W + (x + ox)).
Proof.
  unfold dest. destruct (_ && _) eqn:E; [|discriminate]. intros [= <-]. lia.
Qed.
Lemma dest_inj a b k : dest a = Some k -> dest b = Some k -> a = b.
Proof.
  destruct a as [y x], b as [y' x']. intros Ha Hb. apply dest_some in Ha as (A1 & A2 & Ek), Hb as (B1 & B2 & Ek').
  assert (E : (y + oy) * W + (x + ox) = (y' + oy) * W + (x' + ox)) by nia.
  assert (y + oy = y' + oy) by nia. f_equal; [lia|nia].
Qed.
Lemma coords_nodup : NoDup coords.
Proof.
  unfold coords. pose proof (zrange_nodup h) as ND. induction ND as [|y l Hy ND IH]; cbn [flat_map]; [constructor|].
  assert (App : forall (A : Type) (l1 l2 : list A), NoDup l1 -> NoDup l2 -> (forall a, In a l1 -> ~ In a l2) -> NoDup (l1 ++ l2)).
  { clear. intros A l1 l2 N1 N2 D. induction N1 as [|a l1 Ha N1 IH]; cbn; [exact N2|]. constructor.
    - rewrite in_app_iff. intros [?|?]; [contradiction|]. apply (D a); [now left|assumption].
    - apply IH. intros b Hb. apply D. now right. }
  apply App; [apply FinFun.Injective_map_NoDup; [intros a b; congruence|apply zrange_nodup]|exact IH|].
  intros [y' x'] H1 H2. apply in_map_iff in H1 as (? & [= <- <-] & _). apply in_flat_map in H2 as (y'' & Hy'' & H2).
  apply in_map_iff in H2 as (? & [= -> ->] & _). contradiction.
Qed.
Lemma dest_nodup : NoDup (indices dest coords).
Proof.
  pose proof coords_nodup as ND. induction ND as [|a l Ha ND IH]; [constructor|].
  change (indices dest (a :: l)) with ((match dest a with Some k => [k] | None => [] end) ++ indices dest l).
  destruct (dest a) as [k|] eqn:E; cbn [app]; [|exact IH]. constructor; [|exact IH].
  intro Hk. apply in_flat_map in Hk as (b & Hb & Hk). destruct (dest b) as [j|] eqn:Eb; [|destruct Hk].
  destruct Hk as [->|[]]. apply Ha. now rewrite (dest_inj a b k E Eb).
Qed.

(** The pixel of the cel that lies at canvas position [(x, y)]. *)
Lemma dest_at x y : 0 <= x < W -> 0 <= y < H ->
  let yx := (y - oy, x - ox) in
  (In yx coords <-> covers cel x y = true) /\ dest yx = Some (Z.to_nat (y * W + x)).
Proof.
  intros Hx Hy yx. split.
  - unfold yx. rewrite in_coords. unfold covers, w, h, ox, oy. destruct (fc_origin cel), (fc_size cel). cbn [fst snd]. lia.
  - unfold yx, dest. replace (y - oy + oy) with y by lia. replace (x - ox + ox) with x by lia.
    replace (_ && _ && _ && _) with true by lia. reflexivity.
Qed.

Lemma render_pixels_outcome t : W * H * 4 <= zlen t ->
  match render_pixels c W H cel img f op t with
  | Ok t' => zlen t' = zlen t /\
      (forall n, W * H * 4 <= Z.of_nat n -> nth_error t' n = nth_error t n) /\
      forall x y, 0 <= x < W -> 0 <= y < H -> exists back p, pixel W t x y = Some back /\ pixel W t' x y = Some p /\
        if covers cel x y then exists front, pixel w img (x - ox) (y - oy) = Some front /\ f back front op = Ok p
        else p = back
  | Err _ => False
  | Panic q => exists x y back front, 0 <= x < W /\ 0 <= y < H /\ covers cel x y = true /\ pixel W t x y = Some back /\
      pixel w img (x - ox) (y - oy) = Some front /\ f back front op = Panic q
  end.
Proof.
  intro Ht. unfold render_pixels. fold w h.
  rewrite (fold_nested (fun t y x => render_pixel c W H cel img f op t y x) (fun _ => zrange w)). fold coords.
  assert (Hdest : forall b k, dest b = Some k -> (4 * k + 4 <= length t)%nat).
  { intros [y x] k Hk. apply dest_some in Hk as (H1 & H2 & ->). pose proof (index_bound W H _ _ H1 H2). unfold zlen in Ht. lia. }
  pose proof (writes_go dest cel_val (length t) (fun t '(y, x) => render_pixel c W H cel img f op t y x) Hdest coords) as G.
  specialize (G ltac:(intros t0 [y x] H0 Hin; apply (step_eq t0 (y, x)); [unfold zlen in *; lia|exact Hin])).
  specialize (G coords (fun b Hb => Hb) dest_nodup t eq_refl).
  assert (Hsrc : forall x y, In (y, x) coords -> pixel w img x y = Some (source (y, x))).
  { intros x y Hin. apply in_coords in Hin. apply (pixel_at_px w h); lia. }
  match type of G with context [fold_out ?a ?b ?d] => set (r := fold_out a b d) in G; change (fold_out _ coords t) with r end.
  destruct r as [t'|e|q].
  - destruct G as (L & N & O & V). split; [unfold zlen; lia|]. split.
    + intros n Hn. apply N. intros k Hk. right. apply in_flat_map in Hk as ([y x] & _ & Hk).
      destruct (dest (y, x)) as [j|] eqn:Ej; [|destruct Hk]. destruct Hk as [->|[]].
      apply dest_some in Ej as (H1 & H2 & ->). pose proof (index_bound W H _ _ H1 H2). lia.
    + intros x y Hx Hy. destruct (dest_at x y Hx Hy) as [Hin Hd].
      exists (at_px t (Z.to_nat (y * W + x))), (at_px t' (Z.to_nat (y * W + x))).
      split; [apply (pixel_at_px W H); assumption|]. split; [apply (pixel_at_px W H); [exact Hx|exact Hy|unfold zlen in *; rewrite L; exact Ht]|].
      destruct (covers cel x y) eqn:Ec.
      * exists (source (y - oy, x - ox)). split; [apply Hsrc; now apply Hin|]. apply (V (y - oy, x - ox)); [now apply Hin|exact Hd].
      * apply O. intro Hk. apply in_flat_map in Hk as (b & Hb & Hk). destruct (dest b) as [j|] eqn:Ej; [|destruct Hk].
        destruct Hk as [->|[]]. assert (b = (y - oy, x - ox)) as -> by (eapply dest_inj; eassumption).
        apply Hin in Hb. discriminate.
  - exact G.
  - destruct G as ([y x] & k & Hin & Hd & Hv). pose proof Hd as Hd'. apply dest_some in Hd' as (H1 & H2 & ->).
    exists (x + ox), (y + oy), (at_px t (Z.to_nat ((y + oy) * W + (x + ox)))), (source (y, x)).
    split; [exact H1|]. split; [exact H2|].
    destruct (dest_at (x + ox) (y + oy) H1 H2) as [Hin' _]. replace (y + oy - oy) with y in Hin' by lia. replace (x + ox - ox) with x in Hin' by lia.
    split; [now apply Hin'|]. split; [now apply (pixel_at_px W H)|].
    replace (x + ox - ox) with x by lia. replace (y + oy - oy) with y by lia. split; [now apply Hsrc|exact Hv].
Qed.

(** Bytes stay bytes. *)
Lemma render_pixels_bytes t t' :
  (forall b s p, is_px b -> is_px s -> f b s op = Ok p -> is_px p) -> is_bytes img -> is_bytes t -> W * H * 4 <= zlen t ->
  render_pixels c W H cel img f op t = Ok t' -> is_bytes t'.
Proof.
  intros Hf Hi Hb Ht. unfold render_pixels. fold w h.
  rewrite (fold_nested (fun t y x => render_pixel c W H cel img f op t y x) (fun _ => zrange w)). fold coords.
  assert (Hin : forall b, In b coords -> In b coords) by auto. revert Hin. generalize coords at 1 3. intro l. revert t Hb Ht.
  induction l as [|[y x] l IH]; intros t Hb Ht Hin; cbn [fold_out]; [now intros [= <-]|].
  pose proof (step_eq t (y, x) Ht (Hin _ (or_introl eq_refl))) as E. cbn [fst snd] in E. rewrite E. unfold step_as.
  assert (Hin' : forall b, In b l -> In b coords) by (intros b ?; apply Hin; now right).
  destruct (dest (y, x)) as [k|]; [|cbn [bind]; now apply IH].
  destruct (cel_val (y, x) (at_px t k)) as [p|[]|q] eqn:Ev; cbn [bind]; [|discriminate].
  apply IH; [|unfold zlen in *; now rewrite put_length|exact Hin'].
  apply put_bytes; [exact Hb|]. apply (Hf (at_px t k) (source (y, x)) p); [now apply at_px_byte| |exact Ev].
  unfold source. now apply at_px_byte.
Qed.
End Cel.
