(** Indexed sprites with other palettes (C119) *)
From Verif.Model Require Import Loader.
From Verif.Spec Require Import Bytes ImageSpec RenderSpec Made Convert Repaint.
From Verif.Proofs Require Import ImageFacts UnpackProps ConvertProps.

Section Repaint.
Context (c : cfg) (inflate : inflater).
Hypothesis Hc : cfg_ok c.

Lemma nth_pal pal v : zlen pal = 256 -> is_byte v -> nth_error pal (Z.to_nat v) = Some (nth (Z.to_nat v) pal black).
Proof. intros H B. apply nth_error_nth'. unfold is_byte, zlen in *. lia. Qed.

Lemma rgba_same pal pal' : zlen pal = 256 -> zlen pal' = 256 -> forall l l', is_bytes l -> is_bytes l' ->
  (index_rgba pal l = index_rgba pal' l' <-> Forall2 (same_colour pal pal') l l').
Proof.
  intros Hp Hp'. induction l as [|v l IH]; intros [|v' l'] B B'; try (split; intro H; [discriminate H || constructor|inversion H || reflexivity]; fail).
  apply Forall_cons_iff in B as [B Bl]. apply Forall_cons_iff in B' as [B' Bl'].
  assert (Q : same_colour pal pal' v v' <-> nth (Z.to_nat v) pal black = nth (Z.to_nat v') pal' black).
  { unfold same_colour. rewrite (nth_pal pal v Hp B), (nth_pal pal' v' Hp' B'). split; [intros (x & [= E] & [= E'])|intro E; eexists]; rewrite ?E; (congruence || now split). }
  unfold index_rgba in *. cbn [flat_map app]. split.
  - intro H. injection H as E1 E2 E3 E4 E. constructor; [|now apply IH]. apply Q.
    destruct (nth (Z.to_nat v) pal black), (nth (Z.to_nat v') pal' black). cbn in *. now subst.
  - intro H. inversion H as [|x y lx ly H1 HF]; subst. apply Q in H1. rewrite H1. apply IH in HF; try assumption. now rewrite HF.
Qed.

(** A picture of such a sprite *)
Lemma load_indexed s pal j im target : typed c s -> Forall (fun im => rgba_size im < 2 ^ usize_bits c) (af_images s) ->
  indexed_with s pal -> nth_error (af_images s) j = Some im ->
  load_image c inflate s (Z.of_nat j) target =
    if zlen target <? rgba_size im then Err (TargetBufferTooSmall, target)
    else Ok (index_rgba pal (im_data im) ++ skipn (Z.to_nat (rgba_size im)) target).
Proof.
  intros (_ & _ & Hp & Hi & _) Hs (Hd & Epal & HF) E. rewrite Forall_forall in Hs, Hi, HF. apply nth_error_In in E as I.
  destruct (Hi _ I) as (Hw & Hh & Hb & _). specialize (Hs _ I). destruct (HF _ I) as [Ez Hl]. pose proof (Hp _ Epal) as [Hp256 _].
  unfold load_image, get_index. replace (0 <=? Z.of_nat j) with true by lia. rewrite Nat2Z.id, E. cbn [bind].
  unfold rgba_size in *. set (a := im_width im * im_height im) in *. assert (Ha : 0 <= a) by (unfold a; nia).
  rewrite usizec_id by lia. cbn [bind]. rewrite usizec_id by lia. cbn [bind].
  destruct (zlen target <? a * 4) eqn:L; [reflexivity|]. unfold decode_image. rewrite Hd, Ez, Epal. cbn [need_palette bind].
  rewrite (index_ok c pal _ _ a) by (try assumption; rewrite ?zlen_firstn; lia). now replace (zlen (im_data im) =? a) with true by lia.
Qed.

Lemma load_none s j target : nth_error (af_images s) j = None -> load_image c inflate s (Z.of_nat j) target = Panic PIndex.
Proof. intro E. unfold load_image, get_index. replace (0 <=? Z.of_nat j) with true by lia. now rewrite Nat2Z.id, E. Qed.

Lemma Forall2_by_nth {A B} (R : A -> B -> Prop) : forall l l', length l = length l' ->
  (forall k x y, nth_error l k = Some x -> nth_error l' k = Some y -> R x y) -> Forall2 R l l'.
Proof.
  induction l as [|x l IH]; intros [|y l'] L H; try discriminate L; constructor.
  - now apply (H 0%nat).
  - apply IH; [now injection L|]. intro k. apply (H (S k)).
Qed.

Lemma repainted_exactly s s' pal pal' : typed c s -> typed c s' ->
  Forall (fun im => rgba_size im < 2 ^ usize_bits c) (af_images s) ->
  indexed_with s pal -> indexed_with s' pal' -> Forall2 same_size (af_images s) (af_images s') ->
  ((forall j target, load_image c inflate s j target = load_image c inflate s' j target) <->
   Forall2 (same_colours pal pal') (af_images s) (af_images s')).
Proof.
  intros Ht Ht' Hs HI HI' HZ.
  assert (Hs' : Forall (fun im => rgba_size im < 2 ^ usize_bits c) (af_images s')).
  { clear - Hs HZ. induction HZ as [|im im' l l' [Ew Eh] HZ IH]; [constructor|]. apply Forall_cons_iff in Hs as [H Hs].
    constructor; [|now apply IH]. unfold rgba_size in *. now rewrite Ew, Eh. }
  assert (P : zlen pal = 256) by (destruct Ht as (_ & _ & H & _), HI as (_ & E & _); now apply H in E).
  assert (P' : zlen pal' = 256) by (destruct Ht' as (_ & _ & H & _), HI' as (_ & E & _); now apply H in E).
  assert (Q : forall k im im', nth_error (af_images s) k = Some im -> nth_error (af_images s') k = Some im' ->
    is_bytes (im_data im) /\ is_bytes (im_data im') /\ rgba_size im' = rgba_size im /\ 0 <= rgba_size im).
  { intros k im im' E E'. destruct Ht as (_ & _ & _ & Hi & _), Ht' as (_ & _ & _ & Hi' & _). rewrite Forall_forall in Hi, Hi'.
    destruct (Hi _ (nth_error_In _ _ E)) as (Hw & Hh & Hb & _), (Hi' _ (nth_error_In _ _ E')) as (_ & _ & Hb' & _).
    pose proof (Forall2_nth _ _ _ HZ k) as Z. rewrite E, E' in Z. destruct Z as [Ew Eh].
    unfold rgba_size. rewrite Ew, Eh. repeat split; try assumption. nia. }
  split.
  - intro H. apply Forall2_by_nth; [clear - HZ; induction HZ; cbn; congruence|]. intros k im im' E E'.
    destruct (Q k im im' E E') as (B & B' & Ez & Hz). apply rgba_same; try assumption.
    specialize (H (Z.of_nat k) (repeat 0 (Z.to_nat (rgba_size im)))).
    rewrite (load_indexed s pal k im), (load_indexed s' pal' k im') in H by assumption. rewrite Ez in H.
    assert (L : zlen (repeat 0 (Z.to_nat (rgba_size im))) = rgba_size im) by (unfold zlen; rewrite repeat_length; lia).
    rewrite L, Z.ltb_irrefl in H. injection H as H. now apply app_inv_tail in H.
  - intros H j target. destruct (Z_lt_le_dec j 0) as [N|N].
    { unfold load_image, get_index. now replace (0 <=? j) with false by lia. }
    rewrite <- (Z2Nat.id j N). set (k := Z.to_nat j). pose proof (Forall2_nth _ _ _ H k) as S.
    destruct (nth_error (af_images s) k) as [im|] eqn:E, (nth_error (af_images s') k) as [im'|] eqn:E'; try contradiction.
    + destruct (Q k im im' E E') as (B & B' & Ez & Hz).
      rewrite (load_indexed s pal k im), (load_indexed s' pal' k im') by assumption. rewrite Ez.
      apply rgba_same in S; try assumption. now rewrite S.
    + now rewrite !load_none.
Qed.
End Repaint.

Lemma repainted_frames c inflate s s' pal pal' : cfg_ok c -> typed c s -> typed c s' ->
  Forall (fun im => rgba_size im < 2 ^ usize_bits c) (af_images s) ->
  indexed_with s pal -> indexed_with s' pal' ->
  Forall2 same_size (af_images s) (af_images s') -> Forall2 (same_colours pal pal') (af_images s) (af_images s') ->
  canvas s' = canvas s -> af_layers s' = af_layers s -> af_frames s' = af_frames s ->
  (forall k target sel, render_frame c inflate s k target sel = render_frame c inflate s' k target sel) /\
  (forall hasher k target,
     combined_frame_image c inflate hasher s k target = combined_frame_image c inflate hasher s' k target).
Proof.
  intros Hc Ht Ht' Hs HI HI' HZ H [= Ew Eh] El Ef. apply render_same; try assumption.
  now apply (repainted_exactly c inflate Hc s s' pal pal').
Qed.
