(** Changing layers and durations in place (C124). *)
From Verif.Model Require Import Loader.
From Verif.Spec Require Import Bytes Format FileSpec LoaderSpec Loads Patch.
From Verif.Proofs Require Import ParseLib FileFacts FileProps LoaderFacts LoaderProps RenderFacts LoadsProps EditFacts EditProps PatchProps.

Lemma proj_swap {X} (g : chunk -> list user_data_chunk -> list X) P y y' Q :
  followers (y :: Q) = followers (y' :: Q) -> g y (followers Q) = g y' (followers Q) ->
  proj g (P ++ y :: Q) = proj g (P ++ y' :: Q).
Proof.
  intros H1 H2. apply proj_app; [exact H1|]. unfold proj. cbn [suffixes flat_map]. now rewrite H2.
Qed.
Lemma flat_split {X Y} (h : X -> list Y) l : forall A y B, flat_map h l = A ++ y :: B ->
  exists F1 f F2 A' B', l = F1 ++ f :: F2 /\ h f = A' ++ y :: B' /\ A = flat_map h F1 ++ A' /\ B = B' ++ flat_map h F2.
Proof.
  induction l as [|x l IH]; intros A y B H; [destruct A; discriminate|]. cbn [flat_map] in H.
  assert (G : forall A0, A = h x ++ A0 -> flat_map h l = A0 ++ y :: B ->
    exists F1 f F2 A' B', x :: l = F1 ++ f :: F2 /\ h f = A' ++ y :: B' /\ A = flat_map h F1 ++ A' /\ B = B' ++ flat_map h F2).
  { intros A0 -> H'. destruct (IH _ _ _ H') as (F1 & f & F2 & A' & B' & -> & E & -> & ->).
    exists (x :: F1), f, F2, A', B'. cbn [flat_map]. rewrite <- app_assoc. auto. }
  apply app_eq_app in H as (m & [[E1 E2]|[E1 E2]]); [|now apply (G m)].
  destruct m as [|z m]; cbn [app] in E2.
  - apply (G []); [rewrite E1, !app_nil_r; reflexivity|now symmetry].
  - injection E2 as <- ->. exists [], x, l, A, m. auto.
Qed.

Lemma layers_split cs : forall A y B, spec_layers cs = A ++ y :: B ->
  exists P l0 Q, cs = P ++ ChLayer l0 :: Q /\ y = layer_with l0 (own Q) /\
    forall l0', spec_layers (P ++ ChLayer l0' :: Q) = A ++ layer_with l0' (own Q) :: B.
Proof.
  induction cs as [|x cs IH]; intros A y B H.
  - destruct A; discriminate.
  - assert (Hs : forall x cs, spec_layers (x :: cs) = match x with ChLayer l => [layer_with l (own cs)] | _ => [] end ++ spec_layers cs)
      by reflexivity.
    rewrite Hs in H. apply app_eq_app in H as (m & [[E1 E2]|[E1 E2]]).
    + destruct A as [|a A].
      * destruct m as [|z m]; cbn [app] in E1, E2.
        { destruct (IH [] y B (eq_sym E2)) as (P & l0 & Q & -> & Ey & HP). exists (x :: P), l0, Q. repeat split; auto.
          intro l0'. cbn [app]. rewrite Hs. destruct x; try discriminate E1; cbn [app]; apply HP. }
        injection E2 as <- E2. destruct x; try discriminate E1. injection E1 as E1 E3. subst m.
        exists [], l, cs. repeat split; auto. intro l0'. cbn [app]. rewrite Hs. cbn [app] in *. now rewrite E2.
      * destruct x; try discriminate E1. injection E1 as <- E1. symmetry in E1. apply app_eq_nil in E1 as [-> ->].
        cbn [app] in E2. destruct (IH [] y B (eq_sym E2)) as (P & l0 & Q & -> & Ey & HP). exists (ChLayer l :: P), l0, Q. repeat split; auto.
        intro l0'. cbn [app]. rewrite Hs, HP. cbn [app]. f_equal. unfold own.
        now rewrite (followers_app P (ChLayer l0' :: Q) (ChLayer l0 :: Q) eq_refl).
    + destruct (IH m y B E2) as (P & l0 & Q & -> & Ey & HP). exists (x :: P), l0, Q. repeat split; auto.
      intro l0'. cbn [app]. rewrite Hs, HP, E1, <- app_assoc. f_equal. destruct x; try reflexivity. unfold own.
      now rewrite (followers_app P (ChLayer l0' :: Q) (ChLayer l0 :: Q) eq_refl).
Qed.

Section ChangeLayer.
Context (raw : raw_file) (s : ase_file) (Hs : stands_for raw s).
Context (F1 : list raw_frame) (fr : raw_frame) (F2 : list raw_frame) (P : list chunk) (l0 : layer_chunk) (Q : list chunk).
Context (A B : list layer_chunk).
Context (Ef : rw_frames raw = F1 ++ fr :: F2) (Ec : rf_chunks fr = P ++ ChLayer l0 :: Q).
Context (HA : forall l, spec_layers (P ++ ChLayer l :: Q) = A ++ layer_with l (own Q) :: B).

Definition lfr l := re_frame fr (P ++ ChLayer l :: Q).
Definition lraw l := re_file raw (F1 ++ lfr l :: F2).

Lemma lproj {X} (g : chunk -> list user_data_chunk -> list X) l : (forall y us, g (ChLayer y) us = []) ->
  proj g (rf_chunks (lfr l)) = proj g (rf_chunks fr).
Proof. intro Hg. unfold lfr. cbn [re_frame rf_chunks]. rewrite Ec. apply proj_swap; [reflexivity|now rewrite !Hg]. Qed.
Lemma lall {X} (h : raw_frame -> list X) l : h (lfr l) = h fr ->
  flat_map h (rw_frames (lraw l)) = flat_map h (rw_frames raw).
Proof. intro H. unfold lraw. cbn [re_file rw_frames]. rewrite Ef, !flat_map_app. cbn [flat_map]. now rewrite H. Qed.
Lemma lplain {X} (g : chunk -> list X) l : (forall y, g (ChLayer y) = []) ->
  flat_map g (all_chunks (rw_frames (lraw l))) = flat_map g (all_chunks (rw_frames raw)).
Proof. intro Hg. rewrite !flat_chunks. apply lall. rewrite !proj_plain. now apply lproj. Qed.
Lemma lpalette l : palette_of (lraw l) = palette_of raw.
Proof.
  unfold palette_of. change (rw_header (lraw l)) with (rw_header raw).
  assert (E : spec_palette (h_transparent_index (rw_header raw)) (rw_frames (lraw l)) = spec_palette (h_transparent_index (rw_header raw)) (rw_frames raw)).
  { unfold spec_palette, spec_writes, new_palettes, palettes_0004, palettes_0011. rewrite !(lplain _ l) by reflexivity. reflexivity. }
  now rewrite E.
Qed.
Let A' := flat_map (fun f => spec_layers (rf_chunks f)) F1 ++ A.
Let B' := B ++ flat_map (fun f => spec_layers (rf_chunks f)) F2.
Lemma llayers l : spec_all_layers (lraw l) = A' ++ layer_with l (own Q) :: B'.
Proof.
  unfold spec_all_layers, lraw, A', B'. cbn [re_file rw_frames]. rewrite flat_map_app. cbn [flat_map].
  unfold lfr. cbn [re_frame rf_chunks]. rewrite HA, <- !app_assoc. reflexivity.
Qed.
Lemma lsame : lraw l0 = raw.
Proof.
  unfold lraw, lfr, re_file, re_frame. rewrite <- Ec. destruct fr as [du cs]. cbn [rf_duration rf_chunks].
  rewrite <- Ef. now destruct raw.
Qed.
Lemma lcount l : layer_count (lraw l) = layer_count raw.
Proof.
  rewrite <- lsame. unfold layer_count. rewrite !llayers. unfold zlen. now rewrite !app_length.
Qed.
Lemma lframes l pal : f_frames (file_of (lraw l) pal) = f_frames (file_of raw pal).
Proof.
  unfold file_of. cbn [f_frames]. rewrite lcount. unfold lraw. cbn [re_file rw_frames]. rewrite Ef, !map_app. cbn [map].
  do 2 f_equal. f_equal. f_equal. exact (lproj g_cel l (fun _ _ => eq_refl)).
Qed.

Lemma change_layer : f_layers (af_file s) = A' ++ layer_with l0 (own Q) :: B' /\
  forall l, exists s', stands_for (lraw l) s' /\
    f_header (af_file s') = f_header (af_file s) /\ f_palette (af_file s') = f_palette (af_file s) /\
    f_layers (af_file s') = A' ++ layer_with l (own Q) :: B' /\ f_frames (af_file s') = f_frames (af_file s) /\
    f_tags (af_file s') = f_tags (af_file s) /\
    f_slices (af_file s') = f_slices (af_file s) /\ f_user_data (af_file s') = f_user_data (af_file s) /\
    af_frames s' = af_frames s /\ af_tags s' = af_tags s /\ af_images s' = af_images s.
Proof.
  pose proof Hs as ((pal & Hp & Efile & Hall) & HL & HT & HI & HF).
  split. { rewrite Efile, <- lsame. apply llayers. } intro l.
  exists {| af_file := file_of (lraw l) pal; af_layers := layers_of (f_layers (file_of (lraw l) pal)); af_tags := af_tags s;
            af_images := af_images s; af_frames := af_frames s |}.
  assert (Et : flat_map (fun fr => spec_tags (rf_chunks fr)) (rw_frames (lraw l)) = flat_map (fun fr => spec_tags (rf_chunks fr)) (rw_frames raw))
    by (apply lall; exact (lproj g_tags l (fun _ _ => eq_refl))).
  cbn [af_file af_frames af_tags af_images]. rewrite lframes, Efile. split.
  - unfold stands_for. cbn [af_file af_layers af_tags af_images af_frames]. rewrite lframes. split.
    { exists pal. rewrite lpalette. repeat split; auto. rewrite lcount. unfold frame_cels in *.
      rewrite (lall (fun f => spec_cels (rf_chunks f)) l) by exact (lproj g_cel l (fun _ _ => eq_refl)). exact Hall. }
    split; [reflexivity|]. rewrite Efile in HT, HI, HF. split; [|now split]. rewrite HT. unfold file_of. cbn [f_tags]. now rewrite Et.
  - unfold file_of. cbn [f_header f_palette f_layers f_tags f_slices f_user_data]. rewrite llayers, Et.
    repeat split; auto.
    + apply lall. exact (lproj g_slice l (fun _ _ => eq_refl)).
    + unfold lraw. cbn [re_file rw_frames]. rewrite Ef. destruct F1 as [|f F]; cbn [app]; [|reflexivity].
      unfold spec_sprite_data. f_equal. exact (lproj g_data l (fun _ _ => eq_refl)).
Qed.
End ChangeLayer.

Definition re_look (l : layer_chunk) (flags bm opacity : Z) : layer_chunk :=
  {| lc_flags := flags mod 128; lc_layer_type := lc_layer_type l; lc_child_level := lc_child_level l;
     lc_blend_mode := blend_mode_code bm; lc_opacity := opacity; lc_name := lc_name l;
     lc_tileset_index := lc_tileset_index l; lc_user_data := lc_user_data l |}.

Lemma chunk_layer err l e : chunk_l err (ChLayer l) e ->
  exists a flags m bm b, e = a ++ (le 2 flags ++ m ++ le 2 bm ++ le 1 (lc_opacity l)) ++ b /\ zlen m = 8 /\
    u16 flags /\ u16 bm /\ lc_flags l = flags mod 128 /\ lc_blend_mode l = blend_mode_code bm /\
    forall flags' bm' op', u16 flags' -> u16 bm' -> u8 op' ->
      chunk_l err (ChLayer (re_look l flags' bm' op')) (a ++ (le 2 flags' ++ m ++ le 2 bm' ++ le 1 op') ++ b).
Proof.
  intros (dd & He & (e1 & rest & Hp & ->) & E). cbn [chunk_code] in E.
  destruct Hp as (flags & ty & dw & dh & bm & ig & en & et & H1 & H2 & H3 & H4 & H5 & H6 & H7 & H8 & H9 & H10 & H11 & H12 & H13 & H14 & H15 & ->).
  exists (le 4 (zlen e) ++ le 2 0x2004), flags, (le 2 ty ++ le 2 (lc_child_level l) ++ le 2 dw ++ le 2 dh), bm, (ig ++ en ++ et ++ rest).
  split; [rewrite <- !app_assoc; rewrite <- !app_assoc in E; exact E|].
  split; [rewrite !zlen_app, !zlen_le; reflexivity|]. do 4 (split; [assumption|]).
  intros flags' bm' op' Hf Hb Ho.
  assert (El : zlen e = zlen ((le 4 (zlen e) ++ le 2 0x2004) ++ (le 2 flags' ++ (le 2 ty ++ le 2 (lc_child_level l) ++ le 2 dw ++ le 2 dh) ++ le 2 bm' ++ le 1 op') ++ ig ++ en ++ et ++ rest)).
  { rewrite E at 1. rewrite !zlen_app, !zlen_le. lia. }
  eexists. split; [rewrite <- El; exact He|]. split; [|rewrite <- El; rewrite <- !app_assoc; reflexivity].
  exists (le 2 flags' ++ le 2 ty ++ le 2 (lc_child_level l) ++ le 2 dw ++ le 2 dh ++ le 2 bm' ++ le 1 op' ++ ig ++ en ++ et), rest.
  split; [|rewrite <- !app_assoc; reflexivity].
  exists flags', ty, dw, dh, bm', ig, en, et. cbn. repeat (split; [assumption|]). split; [reflexivity|].
  split; [assumption|]. split; [reflexivity|]. split; [assumption|]. split; [assumption|reflexivity].
Qed.

Lemma filter_split {X} (g : X -> bool) l : forall A y B, filter g l = A ++ y :: B ->
  exists A' B', l = A' ++ y :: B' /\ filter g A' = A /\ filter g B' = B /\ g y = true.
Proof.
  induction l as [|x l IH]; intros A y B H; [destruct A; discriminate|]. cbn [filter] in H. destruct (g x) eqn:E.
  - destruct A as [|a A]; cbn [app] in H; injection H as -> H.
    + exists [], l. auto.
    + destruct (IH _ _ _ H) as (A' & B' & -> & <- & <- & Hy). exists (a :: A'), B'. cbn. now rewrite E.
  - destruct (IH _ _ _ H) as (A' & B' & -> & <- & <- & Hy). exists (x :: A'), B'. cbn. now rewrite E.
Qed.
Lemma testbit_mod128 v : Z.testbit (v mod 128) 0 = Z.testbit v 0.
Proof. change 128 with (2 ^ 7). apply Z.mod_pow2_bits_low. lia. Qed.

Lemma layer_changed c i s j l : cfg_ok c -> is_bytes i -> addressable c i -> load c i = Ok s ->
  nth_error (af_layers s) j = Some l ->
  exists a flags m bm b, i = a ++ (le 2 flags ++ m ++ le 2 bm ++ le 1 (ly_opacity l)) ++ b /\ zlen m = 8 /\
    u16 flags /\ u16 bm /\ ly_visible l = Z.testbit flags 0 /\ ly_blend_mode l = blend_mode_code bm /\
    forall flags' bm' op', u16 flags' -> u16 bm' -> u8 op' ->
    exists s', load c (a ++ (le 2 flags' ++ m ++ le 2 bm' ++ le 1 op') ++ b) = Ok s' /\ same_but_layers s s' /\
      af_layers s' = set_at j (with_look l flags' bm' op') (af_layers s).
Proof.
  intros Hc Hi Ha Hl Hj. pose proof Hl as Hl'. apply (load_exactly c i s Hc Hi Ha) in Hl' as (raw & Hraw & Hs).
  assert (EL : af_layers s = layers_of (f_layers (af_file s))) by apply Hs. rewrite EL in Hj. unfold layers_of in Hj.
  rewrite nth_error_map in Hj.
  destruct (nth_error (filter _ (f_layers (af_file s))) j) as [y|] eqn:En; [|discriminate]. injection Hj as <-.
  apply nth_error_split in En as (fA & fB & En & Ej).
  destruct (filter_split _ _ _ _ _ En) as (tA & tB & Et & EfA & EfB & Hy).
  assert (Ef0 : f_layers (af_file s) = spec_all_layers raw) by (destruct Hs as ((pal & _ & -> & _) & _); reflexivity).
  rewrite Ef0 in Et. destruct (flat_split _ _ _ _ _ Et) as (F1 & rf & F2 & A & B & Ef & Er & EA & EB).
  destruct (layers_split _ _ _ _ Er) as (P & l0 & Q & Ec & Ey & HP).
  destruct (file_bytes _ raw F1 rf F2 P (ChLayer l0) Q i Ef Ec Hraw) as (a & ex & b & -> & Hex & Hnew).
  destruct (chunk_layer _ l0 ex Hex) as (a' & flags & m & bm & b' & -> & Hm & U1 & U2 & E1 & E2 & Hd).
  destruct (change_layer raw s Hs F1 rf F2 P l0 Q A B Ef Ec HP) as (_ & Hch).
  assert (EA' : a ++ (a' ++ (le 2 flags ++ m ++ le 2 bm ++ le 1 (lc_opacity l0)) ++ b') ++ b =
    (a ++ a') ++ (le 2 flags ++ m ++ le 2 bm ++ le 1 (lc_opacity l0)) ++ b' ++ b) by now rewrite <- !app_assoc.
  exists (a ++ a'), flags, m, bm, (b' ++ b). subst y. cbn [layer_of layer_with ly_opacity ly_visible ly_blend_mode lc_opacity lc_flags lc_blend_mode].
  split; [exact EA'|]. split; [exact Hm|]. split; [exact U1|]. split; [exact U2|].
  split; [rewrite E1; apply testbit_mod128|]. split; [exact E2|]. intros flags' bm' op' V1 V2 V3.
  destruct (Hch (re_look l0 flags' bm' op')) as (s' & Hs' & G1 & G2 & G3 & G4 & G5 & G6 & G7 & G8 & G9 & G10).
  exists s'. split; [|split; [unfold same_but_layers; auto 12|]].
  - assert (EE : zlen (le 2 flags' ++ m ++ le 2 bm' ++ le 1 op') = zlen (le 2 flags ++ m ++ le 2 bm ++ le 1 (lc_opacity l0))).
    { rewrite !zlen_app, !zlen_le. reflexivity. }
    rewrite EA' in Hi, Ha.
    apply load_exactly; [exact Hc| | |].
    + apply (is_bytes_swap _ _ _ _ Hi). unfold is_bytes in *. rewrite !Forall_app in Hi. rewrite !Forall_app.
      repeat split; try apply is_bytes_le; apply Hi.
    + exact (addr_swap c _ _ _ _ Ha EE).
    + eexists. split; [|exact Hs'].
      replace ((a ++ a') ++ (le 2 flags' ++ m ++ le 2 bm' ++ le 1 op') ++ b' ++ b) with
        (a ++ (a' ++ (le 2 flags' ++ m ++ le 2 bm' ++ le 1 op') ++ b') ++ b) by now rewrite <- !app_assoc.
      apply Hnew; [|now apply Hd]. now apply zlen_swap.
  - assert (EL' : af_layers s' = layers_of (f_layers (af_file s'))) by apply Hs'.
    rewrite EL', G3, EL, Ef0, Et, <- EA, <- EB. unfold layers_of. rewrite !filter_app. cbn [filter].
    cbn [layer_with lc_layer_type] in Hy. cbn [layer_with re_look lc_layer_type].
    rewrite Hy, EfA, EfB, !map_app. cbn [map]. rewrite <- Ej, <- (map_length layer_of fA), set_at_mid. do 2 f_equal.
    unfold layer_of, with_look, layer_with, re_look. cbn [lc_flags lc_name lc_opacity lc_blend_mode lc_layer_type ly_name ly_layer_type]. now rewrite testbit_mod128.
Qed.

(** ** Durations *)
Definition re_dur (f : raw_frame) (d : Z) : raw_frame := {| rf_duration := d; rf_chunks := rf_chunks f |}.
Lemma frame_dur err fr e : frame_l err fr e ->
  exists a b, e = a ++ le 2 (rf_duration fr) ++ b /\ forall d, u16 d -> frame_l err (re_dur fr d) (a ++ le 2 d ++ b).
Proof.
  intros (old & new & ig1 & body & ig2 & H1 & H2 & H3 & H4 & H5 & H6 & H7 & E).
  exists (le 4 (zlen e) ++ le 2 0xF1FA ++ le 2 old), (ig1 ++ le 4 new ++ body ++ ig2).
  split; [rewrite <- !app_assoc; exact E|]. intros d Hd.
  assert (El : zlen e = zlen ((le 4 (zlen e) ++ le 2 0xF1FA ++ le 2 old) ++ le 2 d ++ ig1 ++ le 4 new ++ body ++ ig2)).
  { rewrite E at 1. rewrite !zlen_app, !zlen_le. lia. }
  exists old, new, ig1, body, ig2. cbn [re_dur rf_duration rf_chunks]. rewrite <- El.
  repeat (split; [assumption|]). rewrite <- !app_assoc. reflexivity.
Qed.

Lemma duration_changed c i s k sf : cfg_ok c -> is_bytes i -> addressable c i -> load c i = Ok s ->
  nth_error (af_frames s) k = Some sf ->
  exists a b, i = a ++ le 2 (sf_duration sf) ++ b /\
    forall d, u16 d ->
    exists s', load c (a ++ le 2 d ++ b) = Ok s' /\ same_outline s s' /\ af_images s' = af_images s /\
      af_frames s' = set_at k (with_duration sf d) (af_frames s).
Proof.
  intros Hc Hi Ha Hl Hk. pose proof Hl as Hl'. apply (load_exactly c i s Hc Hi Ha) in Hl' as (raw & Hraw & Hs).
  pose proof Hs as ((pal & Hp & Efile & Hall) & HL & HT & HI & HF).
  pose (m := fun f : raw_frame => {| fr_duration := rf_duration f; fr_cels := slots (layer_count raw) (spec_cels (rf_chunks f)) |}).
  assert (Efs : f_frames (af_file s) = map m (rw_frames raw)) by now rewrite Efile.
  assert (Hk' : exists rf, nth_error (rw_frames raw) k = Some rf).
  { destruct (nth_error (rw_frames raw) k) as [rf|] eqn:E; [eauto|]. exfalso.
    apply nth_error_None in E. pose proof (Forall2_length _ _ _ HF) as E2. rewrite numbered_length, Efs, map_length in E2.
    assert (k < length (af_frames s))%nat by (apply nth_error_Some; congruence). lia. }
  destruct Hk' as [rf Er]. apply nth_error_split in Er as (F1 & F2 & Ef & El).
  destruct Hraw as (e1 & e2 & R1 & R2 & R3 & ->). rewrite Ef in R3.
  apply seq_split in R3 as (a1 & ef & b1 & -> & Hf & Hj).
  destruct (frame_dur _ rf ef Hf) as (a & b & -> & Hd).
  assert (Esf : sf_duration sf = rf_duration rf).
  { destruct (loaded_frame c _ s Hl k sf Hk) as (fr & Hfr & -> & _). rewrite Efs, Ef, map_app in Hfr.
    rewrite nth_error_app2 in Hfr by (rewrite map_length; lia). rewrite map_length, El, Nat.sub_diag in Hfr.
    injection Hfr as <-. reflexivity. }
  rewrite Esf.
  assert (EA : forall v, e1 ++ a1 ++ (a ++ le 2 v ++ b) ++ b1 = (e1 ++ a1 ++ a) ++ le 2 v ++ b ++ b1) by (intro; now rewrite <- !app_assoc).
  exists (e1 ++ a1 ++ a), (b ++ b1). split; [apply EA|]. intros d Ud.
  pose (raw' := re_file raw (F1 ++ re_dur rf d :: F2)).
  assert (Hall' : forall X (h : raw_frame -> list X), h (re_dur rf d) = h rf -> flat_map h (rw_frames raw') = flat_map h (rw_frames raw)).
  { intros X h H. unfold raw'. cbn [re_file rw_frames]. rewrite Ef, !flat_map_app. cbn [flat_map]. now rewrite H. }
  assert (El' : spec_all_layers raw' = spec_all_layers raw) by now apply Hall'.
  assert (Ep : palette_of raw' = palette_of raw).
  { unfold palette_of. change (rw_header raw') with (rw_header raw).
    assert (E : spec_palette (h_transparent_index (rw_header raw)) (rw_frames raw') = spec_palette (h_transparent_index (rw_header raw)) (rw_frames raw)).
    { unfold spec_palette, spec_writes, new_palettes, palettes_0004, palettes_0011, all_chunks. rewrite (Hall' _ rf_chunks) by reflexivity. reflexivity. }
    now rewrite E. }
  assert (Efs' : f_frames (file_of raw' pal) = map m F1 ++ m (re_dur rf d) :: map m F2).
  { unfold file_of. cbn [f_frames]. unfold layer_count. rewrite El'. unfold raw'. cbn [re_file rw_frames]. rewrite map_app. reflexivity. }
  assert (Efs0 : f_frames (af_file s) = map m F1 ++ m rf :: map m F2) by (rewrite Efs, Ef, map_app; reflexivity).
  assert (Hnum : forall x, numbered 0 (map m F1 ++ x :: map m F2) = numbered 0 (map m F1) ++ (zlen F1, x) :: numbered (zlen F1 + 1) (map m F2)).
  { intro x. rewrite numbered_app. cbn [numbered]. unfold zlen. now rewrite map_length. }
  assert (Eim : image_cels (f_frames (file_of raw' pal)) = image_cels (f_frames (af_file s))).
  { rewrite Efs', Efs0. unfold image_cels, file_cels. rewrite !Hnum, !flat_map_app. reflexivity. }
  rewrite Efs0, Hnum in HF. apply Forall2_app_inv_l in HF as (G1 & G & HF1 & HF2 & EG).
  inversion HF2 as [|kf1 sf1 lf1 G2 Hsf HF3 E1 E2]; subst G. destruct Hsf as (Hdu & Ho & Hcel).
  assert (LG : length G1 = k). { rewrite <- (Forall2_length _ _ _ HF1), numbered_length, map_length. exact El. }
  assert (sf1 = sf). { rewrite EG, nth_error_app2, LG, Nat.sub_diag in Hk by lia. now injection Hk. } subst sf1.
  assert (Hsh : forall kk y cc, shows (map m F1 ++ m rf :: map m F2) kk y cc -> shows (map m F1 ++ m (re_dur rf d) :: map m F2) kk y cc).
  { intros kk y cc (A1 & A2 & A3 & p' & im' & A4 & A5 & A6). repeat split; auto. exists p', im'.
    rewrite <- Efs0, <- Eim, Efs' in A5. auto. }
  assert (HV : forall kk ys cs, Forall2 (shows (map m F1 ++ m rf :: map m F2) kk) ys cs -> Forall2 (shows (map m F1 ++ m (re_dur rf d) :: map m F2) kk) ys cs).
  { intros kk ys cs. induction 1; constructor; auto. }
  assert (HS' : forall ns gs, Forall2 (fun '(kk, f) g => sf_duration g = fr_duration f /\ sf_origin g = (0, 0) /\
        Forall2 (shows (map m F1 ++ m rf :: map m F2) kk) (filled f) (sf_cels g)) ns gs ->
      Forall2 (fun '(kk, f) g => sf_duration g = fr_duration f /\ sf_origin g = (0, 0) /\
        Forall2 (shows (map m F1 ++ m (re_dur rf d) :: map m F2) kk) (filled f) (sf_cels g)) ns gs).
  { intros ns gs. induction 1 as [|[kk f] g ns gs (D1 & D2 & D3) HR IH]; constructor; [|exact IH].
    split; [exact D1|]. split; [exact D2|]. now apply HV. }
  exists {| af_file := file_of raw' pal; af_layers := af_layers s; af_tags := af_tags s; af_images := af_images s;
            af_frames := G1 ++ with_duration sf d :: G2 |}.
  split; [|split; [|split]].
  - rewrite EA in Hi, Ha. apply load_exactly; [exact Hc| | |].
    + apply (is_bytes_swap _ _ _ _ Hi). apply is_bytes_le.
    + apply (addr_swap c _ _ _ _ Ha). now rewrite !zlen_le.
    + exists raw'. split.
      * exists e1, (a1 ++ (a ++ le 2 d ++ b) ++ b1). split; [exact R1|]. split; [now destruct F1|].
        split; [apply Hj; now apply Hd|now rewrite EA].
      * unfold stands_for. cbn [af_file af_layers af_tags af_images af_frames]. split.
        { exists pal. rewrite Ep. repeat split; auto. unfold layer_count, frame_cels in *. rewrite El', Hall' by reflexivity. exact Hall. }
        split. { rewrite HL, Efile. unfold file_of. cbn [f_layers]. now rewrite El'. }
        split. { rewrite HT, Efile. unfold file_of. cbn [f_tags]. now rewrite (Hall' _ (fun f => spec_tags (rf_chunks f))) by reflexivity. }
        split; [now rewrite Eim|]. rewrite Efs', Hnum. apply Forall2_app; [now apply HS'|]. constructor; [|now apply HS'].
        split; [reflexivity|]. split; [exact Ho|]. now apply HV.
  - unfold same_outline. cbn [af_file af_layers af_tags]. rewrite Efile. unfold file_of.
    cbn [f_header f_palette f_layers f_tags f_slices f_user_data]. rewrite El'.
    rewrite (Hall' _ (fun f => spec_tags (rf_chunks f))), (Hall' _ (fun f => spec_slices (rf_chunks f))) by reflexivity.
    repeat split; auto. unfold raw'. cbn [re_file rw_frames]. rewrite Ef. now destruct F1.
  - reflexivity.
  - cbn [af_frames]. rewrite EG, <- LG, set_at_mid. reflexivity.
Qed.
