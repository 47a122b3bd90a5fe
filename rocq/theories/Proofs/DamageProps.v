(** Where a changed picture shows (C138). *)
From Verif.Model Require Import Loader.
From Verif.Spec Require Import Bytes Format LoaderSpec ImageSpec BlendSpec RenderSpec Patch Damage.
From Verif.Proofs Require Import ParseLib LoaderFacts LoaderProps ImageFacts ImageProps RenderFacts RenderProps ExactProps PatchProps.

Lemma nth_skipn {A} (l : list A) n k : nth_error (skipn n l) k = nth_error l (n + k).
Proof. revert l. induction n as [|n IH]; intros [|x l]; try reflexivity; [now destruct k|]. apply IH. Qed.
Lemma quad_nth l k : quad l k =
  match nth_error l (4 * k), nth_error l (4 * k + 1), nth_error l (4 * k + 2), nth_error l (4 * k + 3) with
  | Some r, Some g, Some b, Some a => Some (r, g, b, a)
  | _, _, _, _ => None
  end.
Proof.
  unfold quad. rewrite <- (Nat.add_0_r (4 * k)) at 2. rewrite <- !nth_skipn. destruct (skipn (4 * k) l) as [|? [|? [|? [|? ?]]]]; reflexivity.
Qed.
Lemma quad_in l k q : quad l k = Some q -> (4 * k + 4 <= length l)%nat.
Proof.
  rewrite quad_nth. intro H. destruct (nth_error l (4 * k)), (nth_error l (4 * k + 1)), (nth_error l (4 * k + 2)), (nth_error l (4 * k + 3)) eqn:E; try discriminate.
  assert (4 * k + 3 < length l)%nat by (apply nth_error_Some; congruence). lia.
Qed.

Lemma differs_nth n P d d' k : 0 < n -> differs_only n P d d' -> ~ P (Z.of_nat k) -> forall a, 0 <= a < n ->
  nth_error d' (Z.to_nat (Z.of_nat k * n + a)) = nth_error d (Z.to_nat (Z.of_nat k * n + a)).
Proof.
  intros Hn [_ H] HP a Ha. apply H; [nia|]. replace ((Z.of_nat k * n + a) / n) with (Z.of_nat k); [exact HP|].
  apply Z.div_unique with a; lia.
Qed.

Section Two.
Context (inflate : inflater) (s s' : ase_file).
Context (HD : h_color_depth (f_header (af_file s')) = h_color_depth (f_header (af_file s))) (HP : f_palette (af_file s') = f_palette (af_file s)).
Lemma other_image im old r : decoded inflate (af_file s') im old r <-> decoded inflate (af_file s) im old r.
Proof. unfold decoded. now rewrite HD, HP. Qed.

Lemma damaged_quad (P : Z -> Prop) im d a b k p q : im_compressed im = false ->
  differs_only (depth_bytes (h_color_depth (f_header (af_file s)))) P (im_data im) d ->
  decoded inflate (af_file s) im (repeat 0 (Z.to_nat (rgba_size im))) a ->
  decoded inflate (af_file s') (with_data im d) (repeat 0 (Z.to_nat (rgba_size im))) b ->
  ~ P (Z.of_nat k) -> quad a k = Some p -> quad b k = Some q -> p = q.
Proof.
  intros Hu Hd Ha Hb HN Hp Hq. apply other_image in Hb. unfold decoded, stored in Ha, Hb. cbn [with_data im_compressed im_data im_width im_height] in Hb. rewrite Hu in Ha, Hb.
  destruct (h_color_depth (f_header (af_file s))) eqn:E; cbn [depth_bytes] in Hd; [| | |contradiction].
  - destruct Ha as [-> _]. destruct Hb as [-> _]. rewrite quad_nth in Hp, Hq.
    assert (G : forall t, (t < 4)%nat -> nth_error d (4 * k + t) = nth_error (im_data im) (4 * k + t)).
    { intros t Ht. pose proof (differs_nth 4 P _ _ k ltac:(lia) Hd HN (Z.of_nat t) ltac:(lia)) as G.
      now replace (Z.to_nat (Z.of_nat k * 4 + Z.of_nat t)) with (4 * k + t)%nat in G by lia. }
    pose proof (G 0%nat ltac:(lia)) as G0. rewrite Nat.add_0_r in G0. rewrite G0, !G, Hp in Hq by lia. congruence.
  - destruct Ha as (px & -> & L1 & ->). destruct Hb as (px' & -> & L2 & ->).
    pose proof (differs_nth 2 P _ _ k ltac:(lia) Hd HN 0 ltac:(lia)) as G. pose proof (differs_nth 2 P _ _ k ltac:(lia) Hd HN 1 ltac:(lia)) as G1.
    replace (Z.to_nat (Z.of_nat k * 2 + 0)) with (2 * k)%nat in G by lia. replace (Z.to_nat (Z.of_nat k * 2 + 1)) with (2 * k + 1)%nat in G1 by lia.
    pose proof (quad_in _ _ _ Hp) as Q1. pose proof (zlen_nonneg (im_data im)) as Z0.
    assert (length (gray_rgba (im_data im)) = 2 * length (im_data im))%nat as EL.
    { pose proof (gray_length (Z.to_nat (im_width im * im_height im)) (im_data im)) as H. unfold zlen in *. lia. }
    destruct (nth_error (im_data im) (2 * k)) as [v|] eqn:N; [|apply nth_error_None in N; lia].
    destruct (nth_error (im_data im) (2 * k + 1)) as [w|] eqn:N1; [|apply nth_error_None in N1; lia].
    rewrite (gray_quad _ _ _ _ N N1) in Hp. rewrite (gray_quad _ _ _ _ G G1) in Hq. congruence.
  - destruct Ha as (px & pal & -> & EP & L1 & ->). destruct Hb as (px' & pal' & -> & EP' & L2 & ->). assert (pal' = pal) as -> by congruence.
    pose proof (differs_nth 1 P _ _ k ltac:(lia) Hd HN 0 ltac:(lia)) as G. replace (Z.to_nat (Z.of_nat k * 1 + 0)) with k in G by lia.
    pose proof (quad_in _ _ _ Hp) as Q1. pose proof (quad_in _ _ _ Hq) as Q2.
    destruct (nth_error (im_data im) k) as [v|] eqn:N.
    + rewrite (index_quad _ _ _ _ N) in Hp. rewrite (index_quad _ _ _ _ G) in Hq. congruence.
    + exfalso. apply nth_error_None in N. assert (length (index_rgba pal (im_data im)) = 4 * length (im_data im))%nat; [|lia].
      unfold index_rgba. clear. induction (im_data im) as [|x l IH]; [reflexivity|]. cbn [flat_map app length]. rewrite IH. lia.
Qed.

Context (c : cfg) (sel : layer_selection) (HL : af_layers s' = af_layers s).
Lemma other_drawn cel : drawn s' sel cel = drawn s sel cel.
Proof. unfold drawn. now rewrite HL. Qed.
Lemma composed_alike x y cels : (forall cel l a b p q, In cel cels -> drawn s sel cel = Some l -> covers cel x y = true ->
    cel_image inflate s cel a -> cel_image inflate s' cel b ->
    pixel (fst (fc_size cel)) a (x - fst (fc_origin cel)) (y - snd (fc_origin cel)) = Some p ->
    pixel (fst (fc_size cel)) b (x - fst (fc_origin cel)) (y - snd (fc_origin cel)) = Some q -> p = q) ->
  forall back p q, composed c inflate s sel x y cels back p -> composed c inflate s' sel x y cels back q -> p = q.
Proof.
  induction cels as [|cel cels IH]; intros H back p q Hp Hq; inversion Hp as [|? ? ? ? S1 K1|? ? ? l a front f mid ? D1 C1 I1 P1 F1 M1 K1]; inversion Hq as [|? ? ? ? S2 K2|? ? ? l' b front' f' mid' ? D2 C2 I2 P2 F2 M2 K2]; subst.
  - reflexivity.
  - eapply IH; [|eassumption..]. intros. eapply H; eauto. now right.
  - rewrite other_drawn in D2. destruct S1; congruence.
  - rewrite other_drawn in S2. destruct S2; congruence.
  - rewrite other_drawn in D2. assert (l' = l) as -> by congruence. assert (f' = f) as -> by congruence.
    assert (front = front') as -> by (eapply (H cel l a b); eauto; now left). assert (mid' = mid) as -> by congruence.
    eapply IH; [|eassumption..]. intros. eapply H; eauto. now right.
Qed.
End Two.

Lemma set_at_nth {A} (l : list A) j a k : (j < length l)%nat -> nth_error (set_at j a l) k = if Nat.eqb k j then Some a else nth_error l k.
Proof.
  intro H. unfold set_at. destruct (Nat.eqb_spec k j) as [->|N].
  - rewrite nth_error_app2 by (rewrite firstn_length; lia). rewrite firstn_length. now replace (j - Nat.min j (length l))%nat with 0%nat by lia.
  - rewrite <- (firstn_skipn j l) at 3. destruct (Nat.lt_ge_cases k j).
    + now rewrite !nth_error_app1 by (rewrite firstn_length; lia).
    + rewrite !nth_error_app2 by (rewrite firstn_length; lia). rewrite firstn_length. replace (k - Nat.min j (length l))%nat with (S (k - j - 1)) by lia.
      rewrite nth_skipn. cbn [nth_error]. rewrite nth_skipn. f_equal. lia.
Qed.

Lemma damage c i s j im : cfg_ok c -> is_bytes i -> addressable c i -> load c i = Ok s -> sprite_fits c s ->
  nth_error (af_images s) j = Some im -> im_compressed im = false ->
  exists a b, i = a ++ im_data im ++ b /\
    forall (P : Z -> Prop) d, is_bytes d -> differs_only (depth_bytes (h_color_depth (f_header (af_file s)))) P (im_data im) d ->
    exists s', load c (a ++ d ++ b) = Ok s' /\ same_outline s s' /\ af_frames s' = af_frames s /\
      forall inflate sel k sf t, inflate_ok inflate -> nth_error (api_frames s) k = Some sf -> is_bytes t ->
      ((exists r, render_frame c inflate s (Z.of_nat k) t sel = Ok r) ->
       (debug c = true -> forall cel l, In cel (sf_cels sf) -> drawn s sel cel = Some l -> separable (ly_blend_mode l)) ->
       exists r', render_frame c inflate s' (Z.of_nat k) t sel = Ok r') /\
      (forall r r' x y, render_frame c inflate s (Z.of_nat k) t sel = Ok r -> render_frame c inflate s' (Z.of_nat k) t sel = Ok r' ->
         0 <= x < canvas_width s -> 0 <= y < canvas_height s -> ~ touched s sel sf j P x y ->
         pixel (canvas_width s) r' x y = pixel (canvas_width s) r x y).
Proof.
  intros Hc Hi Ha Hl Hfit Hj Hu. destruct (data_changed c i s j im Hc Hi Ha Hl Hj) as (a & b & Ei & HX). exists a, b. split; [exact Ei|].
  intros P d Hd Hdiff. pose proof Hdiff as [Hlen _]. destruct (HX d Hd Hlen) as (s' & Hl' & HO & HF & HI). exists s'. split; [exact Hl'|]. split; [exact HO|]. split; [exact HF|].
  pose proof HO as (OH & OP & _ & _ & _ & _ & OL & _).
  assert (Hjl : (j < length (af_images s))%nat) by (apply nth_error_Some; congruence).
  assert (Hi' : is_bytes (a ++ d ++ b)).
  { rewrite Ei in Hi. unfold is_bytes in *. apply Forall_app in Hi as [H1 H2]. apply Forall_app in H2 as [_ H2]. apply Forall_app. split; [exact H1|]. apply Forall_app. auto. }
  assert (Ha' : addressable c (a ++ d ++ b)).
  { unfold addressable in *. rewrite Ei in Ha. unfold zlen in *. rewrite !app_length in *. lia. }
  assert (HD : h_color_depth (f_header (af_file s')) = h_color_depth (f_header (af_file s))) by now rewrite OH.
  assert (EW : canvas_width s' = canvas_width s) by (unfold canvas_width; now rewrite OH). assert (EH : canvas_height s' = canvas_height s) by (unfold canvas_height; now rewrite OH).
  assert (ES : canvas_size s' = canvas_size s) by (unfold canvas_size; now rewrite EW, EH).
  assert (Hfit' : sprite_fits c s').
  { destruct Hfit as [F1 F2]. split; [now rewrite ES|]. rewrite HI. unfold set_at. apply Forall_app. rewrite Forall_forall in F2. split; [|constructor].
    - apply Forall_forall. intros x Hx. apply F2. rewrite <- (firstn_skipn j (af_images s)). apply in_or_app. now left.
    - destruct (F2 im (nth_error_In _ _ Hj)) as [G1 G2]. split; [exact G1|]. cbn [with_data im_data]. now rewrite Hlen.
    - apply Forall_forall. intros x Hx. apply F2. rewrite <- (firstn_skipn (S j) (af_images s)). apply in_or_app. now right. }
  assert (Im : forall cel im', nth_error (af_images s) (Z.to_nat (fc_image_index cel)) = Some im' ->
    nth_error (af_images s') (Z.to_nat (fc_image_index cel)) = Some (if Nat.eqb (Z.to_nat (fc_image_index cel)) j then with_data im d else im')).
  { intros cel im' H. rewrite HI, set_at_nth by exact Hjl. now destruct (Nat.eqb_spec (Z.to_nat (fc_image_index cel)) j). }
  intros inflate sel k sf t Hinf Hk Hb. assert (Hk' : nth_error (api_frames s') k = Some sf) by (unfold api_frames in *; now rewrite HF). split.
  - intros Hr Hsep. assert (Hz : canvas_size s <= zlen t).
    { destruct Hr as [r Hr]. now apply (proj1 (render_exactly c i s Hc Hi Ha Hl inflate Hinf Hfit sel k sf t r Hk Hb)). }
    apply (proj2 (render_succeeds c _ s' Hc Hi' Ha' Hl' inflate Hinf Hfit' sel k sf t Hk' Hb ltac:(lia))). intros cel l Hin Hdr. rewrite (other_drawn s s' sel OL) in Hdr.
    destruct (proj1 (render_succeeds c i s Hc Hi Ha Hl inflate Hinf Hfit sel k sf t Hk Hb Hz) Hr cel l Hin Hdr) as [(v & im' & Nv & Dv) Hm].
    split; [|split; [exact Hm|intro Dbg; exact (Hsep Dbg cel l Hin Hdr)]]. pose proof (Im cel im' Nv) as Nv'.
    destruct (Nat.eqb_spec (Z.to_nat (fc_image_index cel)) j) as [E|E].
    + rewrite E in Nv. assert (im' = im) as -> by congruence. unfold decoded, stored in Dv. rewrite Hu in Dv.
      unfold cel_image, decoded, stored. rewrite HD, OP.
      destruct (h_color_depth (f_header (af_file s))); [| | |contradiction].
      * destruct Dv as [-> L1]. exists d, (with_data im d). split; [exact Nv'|]. cbn [with_data im_compressed im_data im_width im_height]. rewrite Hu. split; [reflexivity|].
        rewrite Hlen. exact L1.
      * destruct Dv as (px & -> & L1 & _). eexists. exists (with_data im d). split; [exact Nv'|]. cbn [with_data im_compressed im_data im_width im_height]. rewrite Hu.
        exists d. repeat split. now rewrite Hlen.
      * destruct Dv as (px & pal & -> & EP & L1 & _). eexists. exists (with_data im d). split; [exact Nv'|]. cbn [with_data im_compressed im_data im_width im_height]. rewrite Hu.
        exists d, pal. repeat split; [exact EP|now rewrite Hlen].
    + exists v, im'. split; [exact Nv'|]. now apply (other_image inflate s s').
  - intros r r' x y R R' Hx Hy HN.
    apply (render_exactly c i s Hc Hi Ha Hl inflate Hinf Hfit sel k sf t r Hk Hb) in R. destruct R as (_ & _ & _ & _ & R).
    apply (render_exactly c _ s' Hc Hi' Ha' Hl' inflate Hinf Hfit' sel k sf t r' Hk' Hb) in R'. destruct R' as (_ & _ & _ & _ & R').
    rewrite EW, EH in R'. destruct (R x y Hx Hy) as (bk & p & B1 & B2 & B3). destruct (R' x y Hx Hy) as (bk' & p' & B1' & B2' & B3').
    assert (bk' = bk) as -> by congruence. rewrite B2, B2'. f_equal. symmetry.
    eapply (composed_alike inflate s s' c sel OL x y (sf_cels sf)); [|exact B3|exact B3'].
    intros cel l u v pu pv Hin Hdr Hcov (im1 & N1 & D1) (im2 & N2 & D2) Pu Pv. pose proof (Im cel im1 N1) as N1'. rewrite N1' in N2. injection N2 as <-.
    destruct (Nat.eqb_spec (Z.to_nat (fc_image_index cel)) j) as [E|E].
    + rewrite E in N1. assert (im1 = im) as -> by congruence. unfold pixel in Pu, Pv. set (m := (y - snd (fc_origin cel)) * fst (fc_size cel) + (x - fst (fc_origin cel))) in *.
      destruct (quad u (Z.to_nat m)) as [[[[z z0] z1] z2]|] eqn:Qu; [|discriminate]. destruct (quad v (Z.to_nat m)) as [[[[z3 z4] z5] z6]|] eqn:Qv; [|discriminate].
      assert (HM : 0 <= m).
      { unfold covers in Hcov. destruct (fc_origin cel) as [ox oy], (fc_size cel) as [sw sh]. subst m. cbn [fst snd] in *. nia. }
      pose proof (damaged_quad inflate s s' HD OP P im d u v (Z.to_nat m) (z, z0, z1, z2) (z3, z4, z5, z6) Hu Hdiff D1 D2) as G. rewrite Z2Nat.id in G by exact HM.
      specialize (G ltac:(intro HPm; apply HN; exists cel, l; auto) Qu Qv). congruence.
    + apply (other_image inflate s s' HD OP) in D2. assert (u = v) as -> by (eapply decoded_unique; eassumption). congruence.
Qed.
