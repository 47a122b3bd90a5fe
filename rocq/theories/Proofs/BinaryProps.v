(** Consequences of the layout theorems. *)
From Verif.Model Require Import RawFile.
From Verif.Proofs Require Import ParseLib ChunkFacts ChunkFacts2 UserDataFacts RawFacts Safety.
Local Ltac Zify.zify_post_hook ::= Z.div_mod_to_equations.

(** ** Header by offsets *)
Lemma zlen3 {A} (g : list A) : zlen g = 3 -> exists a b c, g = [a; b; c].
Proof.
  unfold zlen. destruct g as [|a [|b [|d [|? ?]]]]; cbn [length]; intro H; try lia. eauto.
Qed.

Lemma header_fields i r h : is_bytes i -> parse_header i = Ok (r, h) ->
  r = skipn 128 i /\
  u32 (h_file_size h) /\ field i 0 4 = le 4 (h_file_size h) /\
  field i 4 2 = [0xE0; 0xA5] /\
  u16 (h_frames h) /\ field i 6 2 = le 2 (h_frames h) /\
  u16 (h_width h) /\ field i 8 2 = le 2 (h_width h) /\
  u16 (h_height h) /\ field i 10 2 = le 2 (h_height h) /\
  (exists d, u16 d /\ field i 12 2 = le 2 d /\ h_color_depth h = color_depth_code d) /\
  u32 (h_flags h) /\ field i 14 4 = le 4 (h_flags h) /\
  u16 (h_speed h) /\ field i 18 2 = le 2 (h_speed h) /\
  field i 20 8 = [0; 0; 0; 0; 0; 0; 0; 0] /\
  u8 (h_transparent_index h) /\ field i 28 1 = le 1 (h_transparent_index h) /\
  u16 (h_color_count h) /\ field i 32 2 = le 2 (h_color_count h) /\
  u8 (h_pixel_width h) /\ field i 34 1 = le 1 (h_pixel_width h) /\
  u8 (h_pixel_height h) /\ field i 35 1 = le 1 (h_pixel_height h) /\
  i16 (h_grid_x h) /\ field i 36 2 = les 2 (h_grid_x h) /\
  i16 (h_grid_y h) /\ field i 38 2 = les 2 (h_grid_y h) /\
  u16 (h_grid_width h) /\ field i 40 2 = le 2 (h_grid_width h) /\
  u16 (h_grid_height h) /\ field i 42 2 = le 2 (h_grid_height h).
Proof.
  intros Hi H. apply parse_header_sound in H as (e & -> & H); [|exact Hi].
  assert (Hz := header_l_zlen _ _ H).
  split. { rewrite <- (skipn_length_app e r) at 1. f_equal. unfold zlen in Hz. lia. }
  destruct H as (d & g1 & g2 & H). decompose [and] H. clear H. subst e. clear Hz Hi.
  destruct (zlen3 g1) as (a & b & c & ->); [assumption|]. unfold les.
  repeat match goal with |- _ /\ _ => split end; try assumption; try reflexivity.
  exists d. repeat match goal with |- _ /\ _ => split end; try assumption; reflexivity.
Qed.

Lemma skipn_field i o n : skipn o i = field i o n ++ skipn (o + n) i.
Proof.
  unfold field. revert i. induction o as [|o IH]; intro i; cbn [skipn Nat.add].
  - now rewrite firstn_skipn.
  - destruct i as [|x i]; [now rewrite firstn_nil|apply IH].
Qed.

Lemma field_skipn i o n m : m = (o + n)%nat -> field i o n ++ skipn m i = skipn o i.
Proof. intros ->. symmetry. apply skipn_field. Qed.

Lemma is_bytes_field i o n : is_bytes i -> is_bytes (field i o n).
Proof.
  intro H. apply (is_bytes_app_l _ (skipn (o + n) i)). rewrite <- skipn_field.
  apply (is_bytes_app_r (firstn o i)). now rewrite firstn_skipn.
Qed.

Lemma length_field i o n : (o + n <= length i)%nat -> length (field i o n) = n.
Proof. intro H. unfold field. rewrite firstn_length, skipn_length. lia. Qed.

Lemma field_uint i o n : is_bytes i -> (o + n <= length i)%nat ->
  uint n (le_value (field i o n)) /\ field i o n = le n (le_value (field i o n)).
Proof.
  intros Hi Hl. assert (L := length_field i o n Hl).
  assert (B := is_bytes_field i o n Hi). split.
  - rewrite <- L at 1. now apply le_value_range.
  - rewrite <- L at 2. symmetry. now apply le_le_value.
Qed.

Lemma field_sint i o n : (0 < n)%nat -> is_bytes i -> (o + n <= length i)%nat ->
  exists v, sint n v /\ field i o n = les n v.
Proof.
  intros Hn Hi Hl. destruct (field_uint i o n Hi Hl) as [U E].
  destruct (le_int_sound n Hn (field i o n) [] (to_signed (8 * Z.of_nat n) (le_value (field i o n))))
    as (e & E1 & E2).
  - now apply is_bytes_field.
  - unfold le_int. rewrite E at 1. rewrite <- (app_nil_r (le n _)). rewrite le_uint_app by exact U.
    cbn [bind]. reflexivity.
  - rewrite app_nil_r in E1. destruct E2 as [? ?]. eexists. split; [eassumption|congruence].
Qed.

Lemma header_accept i : is_bytes i ->
  (exists r h, parse_header i = Ok (r, h)) <->
  128 <= zlen i /\ field i 4 2 = [0xE0; 0xA5] /\ field i 20 8 = [0; 0; 0; 0; 0; 0; 0; 0].
Proof.
  intro Hi. split.
  - intros (r & h & H). assert (H' := header_fields _ _ _ Hi H).
    apply parse_header_sound in H as (e & -> & H); [|exact Hi].
    apply header_l_zlen in H. rewrite zlen_app. pose proof (zlen_nonneg r).
    split; [lia|]. split; apply H'.
  - intros (Hl & Hm & Hr).
    assert (HL : (128 <= length i)%nat) by (unfold zlen in Hl; lia).
    assert (U := fun o n => field_uint i o n Hi).
    assert (S := fun o n H => field_sint i o n H Hi).
    destruct (U 0 4)%nat as [A0 B0]; [lia|]. destruct (U 6 2)%nat as [A6 B6]; [lia|].
    destruct (U 8 2)%nat as [A8 B8]; [lia|]. destruct (U 10 2)%nat as [A10 B10]; [lia|].
    destruct (U 12 2)%nat as [A12 B12]; [lia|]. destruct (U 14 4)%nat as [A14 B14]; [lia|].
    destruct (U 18 2)%nat as [A18 B18]; [lia|]. destruct (U 28 1)%nat as [A28 B28]; [lia|].
    destruct (U 32 2)%nat as [A32 B32]; [lia|]. destruct (U 34 1)%nat as [A34 B34]; [lia|].
    destruct (U 35 1)%nat as [A35 B35]; [lia|].
    destruct (S 36 2)%nat as (v36 & A36 & B36); [lia|lia|].
    destruct (S 38 2)%nat as (v38 & A38 & B38); [lia|lia|].
    destruct (U 40 2)%nat as [A40 B40]; [lia|]. destruct (U 42 2)%nat as [A42 B42]; [lia|].
    assert (L29 := length_field i 29 3). assert (L44 := length_field i 44 84).
    set (h := {| h_file_size := le_value (field i 0 4); h_frames := le_value (field i 6 2);
      h_width := le_value (field i 8 2); h_height := le_value (field i 10 2);
      h_color_depth := color_depth_code (le_value (field i 12 2));
      h_flags := le_value (field i 14 4); h_speed := le_value (field i 18 2);
      h_transparent_index := le_value (field i 28 1);
      h_color_count := le_value (field i 32 2); h_pixel_width := le_value (field i 34 1);
      h_pixel_height := le_value (field i 35 1); h_grid_x := v36; h_grid_y := v38;
      h_grid_width := le_value (field i 40 2); h_grid_height := le_value (field i 42 2) |}).
    assert (D : i = field i 0 4 ++ field i 4 2 ++ field i 6 2 ++ field i 8 2 ++ field i 10 2 ++
      field i 12 2 ++ field i 14 4 ++ field i 18 2 ++ field i 20 8 ++ field i 28 1 ++ field i 29 3 ++
      field i 32 2 ++ field i 34 1 ++ field i 35 1 ++ field i 36 2 ++ field i 38 2 ++ field i 40 2 ++
      field i 42 2 ++ field i 44 84 ++ skipn 128 i).
    { rewrite (field_skipn i 44 84 128 eq_refl),
        (field_skipn i 42 2 44 eq_refl),
        (field_skipn i 40 2 42 eq_refl),
        (field_skipn i 38 2 40 eq_refl),
        (field_skipn i 36 2 38 eq_refl),
        (field_skipn i 35 1 36 eq_refl),
        (field_skipn i 34 1 35 eq_refl),
        (field_skipn i 32 2 34 eq_refl),
        (field_skipn i 29 3 32 eq_refl),
        (field_skipn i 28 1 29 eq_refl),
        (field_skipn i 20 8 28 eq_refl),
        (field_skipn i 18 2 20 eq_refl),
        (field_skipn i 14 4 18 eq_refl),
        (field_skipn i 12 2 14 eq_refl),
        (field_skipn i 10 2 12 eq_refl),
        (field_skipn i 8 2 10 eq_refl),
        (field_skipn i 6 2 8 eq_refl),
        (field_skipn i 4 2 6 eq_refl),
        (field_skipn i 0 4 4 eq_refl). reflexivity. }
    exists (skipn 128 i), h.
    match type of D with _ = ?X => transitivity (parse_header X); [now rewrite <- D|] end.
    rewrite Hm, Hr.
    rewrite B0, B6, B8, B10, B12, B14, B18, B28, B32, B34, B35, B36, B38, B40, B42 at 1.
    rewrite !app_assoc. rewrite <- !app_assoc.
    repeat rewrite app_assoc. apply parse_header_accepts. repeat rewrite <- app_assoc.
    exists (le_value (field i 12 2)), (field i 29 3), (field i 44 84).
    repeat (split; [first [assumption | (unfold zlen; rewrite L29; [reflexivity|lia])
      | (unfold zlen; rewrite L44; [reflexivity|lia]) | reflexivity]|]).
    reflexivity.
Qed.

(** ** Unambiguity *)
Definition determined {A} (L : A -> bytes -> Prop) :=
  forall a e r b e' r', L a e -> L b e' -> e ++ r = e' ++ r' -> a = b /\ e = e' /\ r = r'.

Lemma accepts_determined {A} (p : parser A) L : accepts p L -> determined L.
Proof.
  intros H a e r b e' r' H1 H2 E. apply (H _ r) in H1. apply (H _ r') in H2.
  rewrite E, H2 in H1. injection H1 as -> ->. repeat split. now apply app_inv_tail in E.
Qed.

Section Unambiguous.
Variable c : cfg.
Hypothesis Hc : cfg_ok c.
Notation fl := (frame_l (kept_error c)).

Lemma frame_determined a e r b e' r' : is_bytes (e ++ r) -> fl a e -> fl b e' -> e ++ r = e' ++ r' ->
  a = b /\ e = e' /\ r = r'.
Proof.
  intros Hi H1 H2 E.
  assert (P1 := parse_rawframe_accepts c e r a Hc (is_bytes_app_l _ _ Hi) H1).
  assert (B2 : is_bytes e') by (rewrite E in Hi; exact (is_bytes_app_l _ _ Hi)).
  assert (P2 := parse_rawframe_accepts c e' r' b Hc B2 H2).
  rewrite E, P2 in P1. injection P1 as -> ->. repeat split. now apply app_inv_tail in E.
Qed.

Lemma frames_extend a : forall b e r, is_bytes (e ++ r) -> seq_l fl a e -> seq_l fl b (e ++ r) ->
  exists b', b = a ++ b' /\ seq_l fl b' r.
Proof.
  induction a as [|x a IH]; intros b e r Hi H1 H2.
  - apply seq_l_nil_inv in H1 as ->. exists b. auto.
  - apply seq_l_cons_inv in H1 as (e1 & e2 & -> & X1 & X2).
    destruct b as [|y b].
    { apply seq_l_nil_inv in H2. apply frame_l_zlen in X1.
      apply app_eq_nil in H2 as [H2 _]. apply app_eq_nil in H2 as [-> _]. cbn in X1. lia. }
    apply seq_l_cons_inv in H2 as (f1 & f2 & E & Y1 & Y2). rewrite <- app_assoc in E, Hi.
    destruct (frame_determined _ _ _ _ _ _ Hi X1 Y1 E) as (-> & -> & <-).
    destruct (IH b e2 r) as (b' & -> & Hb); [now apply is_bytes_app_r in Hi|assumption..|].
    exists b'. auto.
Qed.

Lemma raw_extension i t g f : is_bytes (i ++ t) -> addressable c (i ++ t) ->
  parse_raw_file c i = Ok g ->
  (parse_raw_file c (i ++ t) = Ok f <->
   exists more, rw_header f = rw_header g /\ rw_frames f = rw_frames g ++ more /\ seq_l fl more t).
Proof.
  intros Hi Ha Hg.
  assert (Hi1 := is_bytes_app_l _ _ Hi).
  assert (Ha1 : addressable c i).
  { unfold addressable in *. rewrite zlen_app in Ha. pose proof (zlen_nonneg t). lia. }
  apply parse_raw_file_iff in Hg; [|assumption..].
  rewrite parse_raw_file_iff by assumption.
  destruct Hg as (e1 & e2 & H1 & H2 & H3 & ->). split.
  - intros (e1' & e2' & H1' & H2' & H3' & E). rewrite <- app_assoc in E, Hi.
    assert (D := accepts_determined _ _ parse_header_accepts _ _ _ _ _ _ H1 H1' E).
    destruct D as (E1 & <- & E2). subst e2'.
    destruct (frames_extend _ _ _ _ (is_bytes_app_r _ _ Hi) H3 H3') as (b' & E3 & E4).
    exists b'. auto.
  - intros (more & E1 & E2 & E3). exists e1, (e2 ++ t). rewrite E1, E2.
    split; [assumption|]. split.
    { intro E. apply app_eq_nil in E as [E _]. contradiction. }
    split; [now apply seq_l_app|now rewrite app_assoc].
Qed.
End Unambiguous.

(** ** Bytes a parser skips *)
Lemma prefix_more {A} (L : A -> bytes -> Prop) x d t : prefix_l L x d -> prefix_l L x (d ++ t).
Proof. intros (e & g & H & ->). exists e, (g ++ t). now rewrite app_assoc. Qed.

Lemma payload_more me x d t : takes_rest x = false -> payload_l me x d -> payload_l me x (d ++ t).
Proof.
  intros Hx H. destruct x; cbn in *; try discriminate; try (now apply prefix_more); assumption.
Qed.

Section Framing.
Variable c : cfg.
Hypothesis Hc : cfg_ok c.
Notation me := (kept_error c).

Lemma chunk_iff x d r : is_bytes (d ++ r) -> addressable c (encode_chunk (chunk_code x) d ++ r) ->
  u32 (zlen d + 6) ->
  (parse_chunk c (encode_chunk (chunk_code x) d ++ r) = Ok (r, x) <-> payload_l me x d).
Proof.
  intros Hb Ha Hu.
  assert (Hz : zlen (encode_chunk (chunk_code x) d) = zlen d + 6).
  { unfold encode_chunk. rewrite !zlen_app, !zlen_le. lia. }
  assert (Hi : is_bytes (encode_chunk (chunk_code x) d ++ r)).
  { unfold encode_chunk. rewrite <- !app_assoc. repeat (apply is_bytes_app; split); try apply is_bytes_le.
    apply is_bytes_app in Hb. tauto. apply is_bytes_app in Hb. tauto. }
  split.
  - intro H. apply parse_chunk_sound in H as (e & E & d' & _ & Hp & E'); [|assumption..].
    apply app_inv_tail in E. subst e. rewrite Hz in E'. unfold encode_chunk in E'.
    apply app_inv_head in E'. apply app_inv_head in E'. now subst.
  - intro H. apply parse_chunk_accepts; [assumption|now apply is_bytes_app_l in Hi|].
    exists d. rewrite Hz. split; [assumption|]. split; [assumption|reflexivity].
Qed.
End Framing.
