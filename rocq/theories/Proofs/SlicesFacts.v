(** Every slice held by a parsed value is a piece of its encoding. *)
From Verif.Model Require Import RawFile.
From Verif.Spec Require Import Slices.
From Verif.Proofs Require Import ParseLib UserDataFacts RawFacts.

Lemma infix_refl s : infix s s.
Proof. exists [], []. now rewrite app_nil_r. Qed.
Lemma infix_l s a b : infix s a -> infix s (a ++ b).
Proof. intros (x & y & ->). exists x, (y ++ b). now rewrite <- !app_assoc. Qed.
Lemma infix_r s a b : infix s b -> infix s (a ++ b).
Proof. intros (x & y & ->). exists (a ++ x), y. now rewrite <- !app_assoc. Qed.
Lemma infix_trans s t u : infix s t -> infix t u -> infix s u.
Proof. intros (x & y & ->) (x' & y' & ->). exists (x' ++ x), (y ++ y'). now rewrite <- !app_assoc. Qed.

(** All of [l] are pieces of [e]. *)
Definition inside (e : bytes) (l : list bytes) : Prop := Forall (fun s => infix s e) l.
Lemma inside_nil e : inside e [].
Proof. constructor. Qed.
Lemma inside_cons e s l : infix s e -> inside e l -> inside e (s :: l).
Proof. now constructor. Qed.
Lemma inside_app e l1 l2 : inside e l1 -> inside e l2 -> inside e (l1 ++ l2).
Proof. intros. now apply Forall_app. Qed.
Lemma inside_l l a b : inside a l -> inside (a ++ b) l.
Proof. intro H. eapply Forall_impl; [|exact H]. intros s Hs. exact (infix_l s a b Hs). Qed.
Lemma inside_r l a b : inside b l -> inside (a ++ b) l.
Proof. intro H. eapply Forall_impl; [|exact H]. intros s Hs. exact (infix_r s a b Hs). Qed.
Lemma inside_trans e e' l : inside e l -> infix e e' -> inside e' l.
Proof. intros H H'. eapply Forall_impl; [|exact H]. intros s Hs. exact (infix_trans s e e' Hs H'). Qed.

(** [inf]: find the piece in a concatenation. *)
Ltac inf :=
  solve [ apply infix_refl | eassumption | apply infix_l; inf | apply infix_r; inf
        | apply inside_l; inf | apply inside_r; inf ].

Lemma string_inside s e : string_l s e -> infix s e.
Proof. intros (_ & _ & ->). inf. Qed.
Lemma opt_inside {A} (L : A -> bytes -> Prop) f o e : (forall a e, L a e -> inside e (f a)) ->
  opt_l L o e -> inside e (opt_list f o).
Proof. intros H Ho. destruct o; [now apply H|apply inside_nil]. Qed.
Lemma seq_inside {A} (L : A -> bytes -> Prop) f l e : (forall a e, L a e -> inside e (f a)) ->
  seq_l L l e -> inside e (flat_map f l).
Proof.
  intro H. revert e; induction l as [|x l IH]; intros e Hl; cbn [flat_map]; [apply inside_nil|].
  apply seq_l_cons_inv in Hl as (e1 & e2 & -> & H1 & H2).
  apply inside_app; [apply inside_l; now apply H|apply inside_r; now apply IH].
Qed.
Lemma string_inside1 s e : string_l s e -> inside e [s].
Proof. intro H. apply inside_cons; [now apply string_inside|apply inside_nil]. Qed.

Lemma flat_map_single {A B} (f : A -> B) l : flat_map (fun x => [f x]) l = map f l.
Proof. induction l; cbn; congruence. Qed.

Lemma user_data_trees_inside :
  (forall v e, value_l v e -> inside e (value_slices v)) /\
  (forall v e, vector_l v e -> inside e (vector_slices v)) /\
  (forall m e, map_l m e -> inside e (map_slices m)) /\
  (forall l e, props_l l e -> inside e (flat_map prop_slices l)) /\
  (forall l e, values_l l e -> inside e (flat_map value_slices l)) /\
  (forall l e, vectors_l l e -> inside e (flat_map vector_slices l)) /\
  (forall l e, maps_l l e -> inside e (flat_map map_slices l)).
Proof.
  apply user_data_ind; intros;
    cbn [value_slices vector_slices map_slices prop_slices flat_map];
    try apply inside_nil; try solve [repeat apply inside_r; assumption].
  - apply inside_r. now apply string_inside1.
  - do 2 apply inside_r. apply (seq_inside string_l (fun s => [s])) in s; [|apply string_inside1].
    rewrite flat_map_single, map_id in s. exact s.
  - apply inside_app; [|inf]. apply inside_cons; [|inf]. apply infix_l. now apply string_inside.
  - apply inside_app; inf.
  - apply inside_app; inf.
  - apply inside_app; inf.
Qed.

Lemma area_inside me x e : properties_area_l me x e ->
  inside e (match x with inl (rest, ms) => rest :: flat_map map_slices ms | inr _ => [] end).
Proof.
  intros (n & area & _ & _ & H & ->). destruct x as [[rest ms]|err]; [|apply inside_nil].
  destruct H as (e' & -> & _ & H). apply inside_cons; [inf|].
  apply user_data_trees_inside in H. inf.
Qed.
Lemma user_data_inside me u e : user_data_l me u e -> inside e (user_data_slices u).
Proof.
  intros (f & e1 & e2 & e3 & _ & H1 & _ & _ & _ & H2 & _ & ->). unfold user_data_slices.
  apply inside_app.
  - pose proof (opt_inside string_l (fun s => [s]) _ _ string_inside1 H1) as H. inf.
  - pose proof (opt_inside _ _ _ _ (area_inside me) H2) as H. inf.
Qed.

Ltac destr_l H := let H' := fresh in pose proof H as H'; hnf in H';
  repeat match type of H' with ex _ => destruct H' as [? H'] end; decompose [and] H'; clear H'.

Lemma packetless_inside e : inside e []. Proof. apply inside_nil. Qed.

Lemma prefix_inside {A} (L : A -> bytes -> Prop) x d l :
  (forall e, L x e -> inside e l) -> prefix_l L x d -> inside d l.
Proof. intros H (e & g & HL & ->). apply inside_l. now apply H. Qed.

Lemma payload_inside me x d : payload_l me x d -> inside d (chunk_slices x).
Proof.
  destruct x; cbn [payload_l chunk_slices]; intro H; try apply inside_nil.
  - revert H. apply prefix_inside. intros e He.
    destruct He as (?&?&?&?&?&?&en&?&?&?&?&?&?&?&?&?&Hs&?&?&?&?&?&Hu&->).
    unfold layer_slices. rewrite Hu. apply inside_cons; [|apply inside_nil].
    apply string_inside in Hs. inf.
  - destruct H as (ty & g & body & _ & _ & _ & _ & _ & _ & _ & H & Hu & ->).
    unfold cel_slices. rewrite Hu. apply inside_app; [|apply inside_nil].
    repeat apply inside_r. destruct (cc_content x); cbn [cel_content_l content_slices] in *.
    + destruct H as (_ & _ & _ & ->). apply inside_cons; [inf|apply inside_nil].
    + apply inside_nil.
    + destruct H as (_&_&_&_&_&_&_&_&g'&_&->). apply inside_cons; [inf|apply inside_nil].
    + destruct H as [-> _]. apply inside_cons; [inf|apply inside_nil].
  - destruct H as (?&?&?&?&?&?&?&?&?&?&?&->). apply inside_cons; [inf|apply inside_nil].
  - revert H. apply prefix_inside. intros e He.
    destruct He as (?&?&?&?&?&?&?&?&?&?&?&Hp&->).
    destruct (cp_profile x); try apply inside_nil. destruct Hp as (_ & _ & ->).
    apply inside_cons; [inf|apply inside_nil].
  - revert H. apply prefix_inside. intros e He.
    destruct He as (?&?&?&?&Hs&->). rewrite <- flat_map_single.
    eapply seq_inside in Hs; [do 2 apply inside_r; exact Hs|].
    intros a e' (?&?&?&?&?&?&?&Hn&->). apply inside_cons; [|apply inside_nil].
    apply string_inside in Hn. inf.
  - destruct H as (?&?&?&?&?&?&?&Hn&->). apply string_inside in Hn.
    apply inside_cons; [inf|]. apply inside_cons; [inf|apply inside_nil].
  - revert H. apply prefix_inside. intros e He.
    destruct He as (?&?&?&?&Hs&->).
    eapply seq_inside in Hs; [do 2 apply inside_r; exact Hs|].
    intros a e' (?&?&?&?&?&?&?&?&?&?&?&?&?&Hn&Hu&->). unfold tag_slices. rewrite Hu.
    apply string_inside in Hn. apply inside_cons; [inf|]. apply inside_cons; [inf|apply inside_nil].
  - revert H. apply prefix_inside. intros e He.
    destruct He as (?&?&?&?&?&?&Hs&->).
    eapply seq_inside in Hs; [do 4 apply inside_r; exact Hs|].
    intros a e' (?&?&?&?&?&Ho&?&->). pose proof (opt_inside string_l (fun s => [s]) _ _ string_inside1 Ho) as Ho'. inf.
  - apply (prefix_inside _ _ _ _ (user_data_inside me _) H).
  - revert H. apply prefix_inside. intros e He.
    destruct He as (?&?&?&?&?&?&?&Hn&?&?&Hu&->). unfold slice_slices. rewrite Hu.
    apply string_inside in Hn. apply inside_cons; [inf|apply inside_nil].
  - revert H. apply prefix_inside. intros e He.
    destruct He as (?&?&?&?&?&?&?&?&?&?&?&?&?&Hn&?&?&Hb&?&->). apply string_inside in Hn.
    apply inside_cons; [inf|].
    eapply (opt_inside blob_l (fun d => [d])) in Hb as Hb'.
    + inf.
    + intros a e' [_ ->]. apply inside_cons; [inf|apply inside_nil].
Qed.

Lemma raw_inside me f i : raw_file_l me f i -> inside i (raw_slices f).
Proof.
  intros (e1 & e2 & _ & _ & H & ->). apply inside_r. unfold raw_slices.
  eapply seq_inside; [|exact H]. clear. intros f e H.
  destruct H as (?&?&?&body&?&?&?&?&?&?&?&H&->). do 6 apply inside_r. apply inside_l.
  eapply seq_inside; [|exact H]. clear. intros x e (d & _ & H & ->).
  do 2 apply inside_r. eapply payload_inside, H.
Qed.
