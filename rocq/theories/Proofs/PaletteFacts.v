(** Palette construction computes [spec_palette]. *)
From Verif.Model Require Import File.
From Verif.Spec Require Import Bytes FileSpec.
From Verif.Proofs Require Import ParseLib RawFacts FileFacts.

Definition painted (ws : list (Z * color)) : palette := map (assigned ws) (zrange 256).
Definition nonempty {A} (l : list A) : bool := match l with [] => false | _ => true end.

Lemma zlen_256 {A} (f : Z -> A) : zlen (map f (zrange 256)) = 256.
Proof. unfold zlen. rewrite map_length, zrange_length. reflexivity. Qed.

Lemma nth_256 {A} (f : Z -> A) k : (k < 256)%nat -> nth_error (map f (zrange 256)) k = Some (f (Z.of_nat k)).
Proof. intro H. rewrite nth_error_map, zrange_nth by (cbn; lia). reflexivity. Qed.

Lemma map_ext_256 {A} (f g : Z -> A) : (forall k, 0 <= k < 256 -> f k = g k) ->
  map f (zrange 256) = map g (zrange 256).
Proof.
  intro H. apply map_ext_in. intros k Hk. unfold zrange in Hk.
  apply in_map_iff in Hk as (m & <- & Hm). apply in_seq in Hm. apply H. cbn in Hm. lia.
Qed.

Lemma set_256 {E A} (f : Z -> A) i x : 0 <= i < 256 ->
  @set_index E A (map f (zrange 256)) i x = Ok (map (fun k => if i =? k then x else f k) (zrange 256)).
Proof.
  intro H. unfold set_index. rewrite zlen_256.
  replace ((0 <=? i) && (i <? 256)) with true by lia. f_equal.
  apply list_ext.
  - now rewrite upd_length, !map_length.
  - intros k Hk. rewrite upd_length, map_length, zrange_length in Hk.
    change (Z.to_nat 256) with 256%nat in Hk.
    rewrite upd_nth by (rewrite map_length, zrange_length; lia).
    rewrite !nth_256 by exact Hk.
    destruct (Nat.eqb_spec (Z.to_nat i) k), (Z.eqb_spec i (Z.of_nat k)); try reflexivity; lia.
Qed.

Lemma assigned_snoc ws i x k : assigned (ws ++ [(i, x)]) k = if i =? k then x else assigned ws k.
Proof. unfold assigned. rewrite rev_app_distr. cbn [rev app find fst]. now destruct (i =? k). Qed.

Lemma paint {E} ws i x : 0 <= i < 256 -> @set_index E color (painted ws) i x = Ok (painted (ws ++ [(i, x)])).
Proof.
  intro H. unfold painted. rewrite set_256 by exact H. f_equal. apply map_ext. intro k.
  now rewrite assigned_snoc.
Qed.

Lemma painted_default : palette_default = painted [].
Proof. reflexivity. Qed.

Lemma clear_painted {E} ws i : 0 <= i < 256 ->
  @clear_alpha E (painted ws) i = Ok (map (spec_color i ws) (zrange 256)).
Proof.
  intro H. unfold clear_alpha, get_index. replace (0 <=? i) with true by lia.
  unfold painted at 1. rewrite nth_256 by lia. cbn [bind]. rewrite Z2Nat.id by lia.
  unfold painted. rewrite set_256 by exact H. f_equal. apply map_ext. intro k. unfold spec_color.
  destruct (Z.eqb_spec i k), (Z.eqb_spec k i); subst; congruence || reflexivity.
Qed.

Lemma nonempty_snoc {A} (l : list A) x : nonempty (l ++ [x]) = true.
Proof. now destruct l. Qed.

(** ** New palette chunks *)
Definition new_step : palette * bool -> palette_entry * Z -> out palette_error (palette * bool) :=
  fun '(p, ok) '(entry, color_idx) =>
        let* p := set_index p color_idx (pe_color entry) in
        Ok (p, true).

Lemma range_incl_cons a b : a <= b -> range_incl a b = a :: range_incl (a + 1) b.
Proof.
  intro H. unfold range_incl. replace (Z.to_nat (b - a + 1)) with (S (Z.to_nat (b - (a + 1) + 1))) by lia.
  cbn [seq map]. f_equal; [lia|]. rewrite <- seq_shift, map_map. apply map_ext. intro. lia.
Qed.
Lemma range_incl_nil a b : b < a -> range_incl a b = [].
Proof. intro H. unfold range_incl. now replace (Z.to_nat (b - a + 1)) with 0%nat by lia. Qed.

Lemma number_above es : forall a b, b < a -> filter (fun w => fst w <=? b) (number a es) = [].
Proof.
  induction es as [|e es IH]; intros a b H; [reflexivity|]. cbn [number filter fst].
  replace (a <=? b) with false by lia. apply IH. lia.
Qed.

Lemma new_chunk_loop es : forall a b ws, 0 <= a -> b <= 255 ->
  fold_out new_step (combine es (range_incl a b)) (painted ws, nonempty ws) =
  let ws' := ws ++ filter (fun w => fst w <=? b) (number a es) in Ok (painted ws', nonempty ws').
Proof.
  induction es as [|e es IH]; intros a b ws Ha Hb; cbv zeta.
  - cbn. now rewrite app_nil_r.
  - cbn [number filter fst]. destruct (Z.leb_spec a b) as [H|H].
    + rewrite range_incl_cons by exact H. cbn [combine fold_out]. unfold new_step at 1.
      rewrite paint by lia. cbn [bind].
      rewrite <- (nonempty_snoc ws (a, pe_color e)). rewrite IH by lia. cbv zeta.
      now rewrite <- app_assoc.
    + rewrite range_incl_nil by exact H. cbn [combine fold_out]. rewrite number_above by lia.
      now rewrite app_nil_r.
Qed.

Definition new_ok (p : palette_chunk) : Prop := 0 <= pc_first p <= pc_last p /\ pc_last p <= 255.

Lemma new_chunks_loop chs : Forall new_ok chs -> forall ws,
  fold_out (fun st ch => fold_out new_step (combine (pc_entries ch) (range_incl (pc_first ch) (pc_last ch))) st)
      chs (painted ws, nonempty ws) =
  let ws' := ws ++ flat_map new_writes chs in Ok (painted ws', nonempty ws').
Proof.
  induction 1 as [|p chs [H1 H2] H IH]; intro ws; cbv zeta; cbn [fold_out flat_map].
  - now rewrite app_nil_r.
  - rewrite new_chunk_loop by lia. cbv zeta. cbn [bind]. fold (new_writes p).
    rewrite IH. cbv zeta. now rewrite <- app_assoc.
Qed.

Definition result (i : Z) (ws : list (Z * color)) : out palette_error palette :=
  match ws with
  | [] => Err PEmpty
  | _ => Ok (map (spec_color i ws) (zrange 256))
  end.

Lemma finish i ws : 0 <= i < 256 ->
  (if nonempty ws then clear_alpha (painted ws) i else Err PEmpty) = result i ws.
Proof. intro H. destruct ws; [reflexivity|]. cbn [nonempty result]. now apply clear_painted. Qed.

Lemma new_palette_spec i chs : 0 <= i < 256 -> Forall new_ok chs ->
  process_palette_chunks i chs palette_default = result i (flat_map new_writes chs).
Proof.
  intros Hi H. unfold process_palette_chunks. rewrite painted_default.
  change false with (nonempty (@nil (Z * color))).
  change (fun st ch => fold_out _ (combine (pc_entries ch) (range_incl (pc_first ch) (pc_last ch))) st)
    with (fun st ch => fold_out new_step (combine (pc_entries ch) (range_incl (pc_first ch) (pc_last ch))) st).
  rewrite new_chunks_loop by exact H. cbv zeta. cbn [app bind]. now apply finish.
Qed.

(** ** Old palette chunks *)
Definition packet_ok (p : packet) : Prop := 0 <= pk_entries_to_skip p <= 255 /\ zlen (pk_colors p) <= 256.
Definition old_ok (ch : old_palette_chunk) : Prop := Forall packet_ok (op_packets ch).

Lemma usizec_small {E} c z : cfg_ok c -> 0 <= z <= 65536 -> @usizec E c z = Ok z.
Proof.
  intros Hc H. unfold usizec. apply checked_ok. destruct (usize_pow c Hc) as [P _].
  change (2 ^ 32) with 4294967296 in P. lia.
Qed.

Lemma old_colors_loop c cols : cfg_ok c -> forall a ws, 0 <= a -> a + zlen cols <= 256 ->
  old_packet_colors c cols (painted ws, a, nonempty ws) =
  let ws' := ws ++ place a cols in Ok (painted ws', a + zlen cols, nonempty ws').
Proof.
  intro Hc. induction cols as [|x cols IH]; intros a ws Ha Hb; cbv zeta.
  - cbn. rewrite app_nil_r. unfold zlen. cbn [length]. now rewrite Z.add_0_r.
  - assert (L : zlen (x :: cols) = zlen cols + 1) by (unfold zlen; cbn [length]; lia).
    rewrite L in Hb |- *. pose proof (zlen_nonneg cols). cbn [place].
    assert (S : old_packet_colors c (x :: cols) (painted ws, a, nonempty ws) =
      old_packet_colors c cols (painted (ws ++ [(a, opaque x)]), a + 1, true)).
    { unfold old_packet_colors. cbn [fold_out]. rewrite paint by lia. cbn [bind].
      rewrite usizec_small by (assumption || lia). reflexivity. }
    rewrite S, <- (nonempty_snoc ws (a, opaque x)), IH by lia. cbv zeta.
    rewrite <- app_assoc. cbn [app]. replace (a + 1 + zlen cols) with (a + (zlen cols + 1)) by lia. reflexivity.
Qed.

Lemma old_packets_loop c ps : cfg_ok c -> Forall packet_ok ps -> forall a ws, 0 <= a <= 256 ->
  fold_out (old_packet c) ps (painted ws, a, nonempty ws) =
  match old_writes a ps with
  | Some new => Ok (painted (ws ++ new), fold_left (fun k p => k + pk_entries_to_skip p + zlen (pk_colors p)) ps a,
                    nonempty (ws ++ new))
  | None => Err PIndexOOB
  end.
Proof.
  intro Hc. induction 1 as [|p ps [H1 H2] H IH]; intros a ws Ha; cbn [fold_out old_writes fold_left].
  - now rewrite app_nil_r.
  - unfold old_packet at 1. rewrite usizec_small by (assumption || lia). cbn [bind].
    pose proof (zlen_nonneg (pk_colors p)).
    rewrite usizec_small by (assumption || lia). cbn [bind].
    destruct (Z.ltb_spec 256 (a + pk_entries_to_skip p + zlen (pk_colors p))) as [Hlt|Hle]; [reflexivity|].
    rewrite old_colors_loop by (assumption || lia). cbv zeta. cbn [bind]. rewrite IH by lia.
    destruct (old_writes _ ps) as [new|]; [|reflexivity]. now rewrite <- app_assoc.
Qed.

Lemma old_chunks_loop c chs : cfg_ok c -> Forall old_ok chs -> forall ws,
  fold_out (fun '(p, ok) ch =>
      let* (p, _, ok) := fold_out (old_packet c) (op_packets ch) (p, 0, ok) in
      Ok (p, ok)) chs (painted ws, nonempty ws) =
  match old_writes_all chs with
  | Some new => Ok (painted (ws ++ new), nonempty (ws ++ new))
  | None => Err PIndexOOB
  end.
Proof.
  intro Hc. induction 1 as [|ch chs H1 H IH]; intro ws; cbn [fold_out old_writes_all].
  - now rewrite app_nil_r.
  - rewrite old_packets_loop by (assumption || lia). destruct (old_writes 0 (op_packets ch)) as [a|]; [|reflexivity].
    cbn [bind]. rewrite IH. destruct (old_writes_all chs); [|reflexivity]. now rewrite <- app_assoc.
Qed.

Lemma old_palette_spec c i chs : cfg_ok c -> 0 <= i < 256 -> Forall old_ok chs ->
  process_old_palette_chunks c i chs palette_default =
  match old_writes_all chs with Some ws => result i ws | None => Err PIndexOOB end.
Proof.
  intros Hc Hi H. unfold process_old_palette_chunks. rewrite painted_default.
  change false with (nonempty (@nil (Z * color))).
  rewrite old_chunks_loop by assumption. destruct (old_writes_all chs); [|reflexivity].
  cbn [app bind]. now apply finish.
Qed.

(** ** The whole construction *)
Definition palette_chunk_ok (x : chunk) : Prop :=
  match x with
  | ChPalette p => new_ok p
  | ChPalette0004 p | ChPalette0011 p => old_ok p
  | _ => True
  end.

Lemma flat_map_flat_map {A B C} (f : B -> list C) (g : A -> list B) l :
  flat_map f (flat_map g l) = flat_map (fun x => flat_map f (g x)) l.
Proof. induction l as [|a l IH]; cbn; [reflexivity|]. now rewrite flat_map_app, IH. Qed.

Lemma Forall_flat_map_of {A B} (P : A -> Prop) (Q : B -> Prop) (f : A -> list B) l :
  Forall P l -> (forall a, P a -> Forall Q (f a)) -> Forall Q (flat_map f l).
Proof. intros H Hf. induction H; cbn; [constructor|]. apply Forall_app. auto. Qed.

Lemma new_palettes_ok fs : Forall palette_chunk_ok (all_chunks fs) -> Forall new_ok (new_palettes fs).
Proof. intro H. eapply Forall_flat_map_of; [exact H|]. intros []; cbn; auto. Qed.
Lemma palettes_0004_ok fs : Forall palette_chunk_ok (all_chunks fs) -> Forall old_ok (palettes_0004 fs).
Proof. intro H. eapply Forall_flat_map_of; [exact H|]. intros []; cbn; auto. Qed.
Lemma palettes_0011_ok fs : Forall palette_chunk_ok (all_chunks fs) -> Forall old_ok (palettes_0011 fs).
Proof. intro H. eapply Forall_flat_map_of; [exact H|]. intros []; cbn; auto. Qed.

Definition sum_out {A E} (x : A + E) : out E A := match x with inl a => Ok a | inr e => Err e end.

Lemma create_palette_spec c h fs : cfg_ok c -> 0 <= h_transparent_index h < 256 ->
  Forall palette_chunk_ok (all_chunks fs) ->
  create_palette c h fs = sum_out (spec_palette (h_transparent_index h) fs).
Proof.
  intros Hc Hi H. unfold create_palette, spec_palette, spec_writes.
  replace (palette_chunks fs) with (new_palettes fs) by apply flat_map_flat_map.
  replace (palette0004_chunks fs) with (palettes_0004 fs) by apply flat_map_flat_map.
  replace (palette0011_chunks fs) with (palettes_0011 fs) by apply flat_map_flat_map.
  pose proof (new_palettes_ok fs H) as H1. pose proof (palettes_0004_ok fs H) as H2.
  pose proof (palettes_0011_ok fs H) as H3.
  destruct (new_palettes fs) as [|p ps].
  - destruct (palettes_0004 fs) as [|q qs]; [destruct (palettes_0011 fs) as [|q qs]; [reflexivity|]|].
    all: rewrite old_palette_spec by assumption; destruct (old_writes_all _) as [[|w ws]|]; reflexivity.
  - rewrite new_palette_spec by assumption. destruct (flat_map new_writes _); reflexivity.
Qed.
