(** Frames of a sprite on one canvas (C137). *)
From Verif.Model Require Import Loader.
From Verif.Spec Require Import Bytes LoaderSpec ImageSpec RenderSpec Refusals Made Sheet.
From Verif.Proofs Require Import ParseLib LoaderFacts LoaderProps RenderFacts RenderProps MadeProps UsageProps.

Section Sheet.
Context (c : cfg) (inflate : inflater) (s s' : ase_file) (sel : layer_selection).
Context (Hc : cfg_ok c) (Hinf : inflate_ok inflate) (Hty : typed c s) (Hty' : typed c s') (Hfit : made_fits c s) (Hfit' : made_fits c s').
Context (HX : same_material s s').

Lemma placed_drawn dx dy cel : drawn s' sel (placed_cel dx dy cel) = drawn s sel cel.
Proof. destruct HX as (_ & _ & L & _). unfold api_layers in L. unfold drawn. now rewrite L. Qed.
Lemma placed_view dx dy cel v : cel_view inflate s' (placed_cel dx dy cel) v <-> cel_view inflate s cel v.
Proof. destruct HX as (D & P & _ & I). unfold cel_view, decoded. now rewrite I, D, P. Qed.
Lemma placed_covers dx dy cel x y : covers (placed_cel dx dy cel) x y = covers cel (x - dx) (y - dy).
Proof. unfold covers, placed_cel. cbn [fc_origin fc_size]. destruct (fc_origin cel), (fc_size cel). cbn [fst snd]. lia. Qed.
Lemma placed_stacked dx dy x y cels : forall back p, stacked c inflate s sel (x - dx) (y - dy) cels back p ->
  stacked c inflate s' sel x y (map (placed_cel dx dy) cels) back p.
Proof.
  induction cels as [|cel cels IH]; intros back p H; cbn [map].
  - inversion H; subst. constructor.
  - inversion H as [|? ? ? ? Hskip H0|? ? ? l view front f mid ? Hdr Hcov Hv Hpx Hf Hm H0]; subst.
    + apply stacked_skip; [now rewrite placed_drawn, placed_covers|now apply IH].
    + eapply (stacked_draw _ _ _ _ _ _ (placed_cel dx dy cel) _ back l view front f mid); try eassumption.
      * now rewrite placed_drawn.
      * now rewrite placed_covers.
      * now apply placed_view.
      * rewrite <- Hpx. unfold placed_cel. cbn [fc_origin fc_size fst snd]. f_equal; lia.
      * now apply IH.
Qed.

Definition here (p : spot) : list frame_cel := sheet_cels s [p].
Lemma sheet_cons p ps : sheet_cels s (p :: ps) = here p ++ sheet_cels s ps.
Proof. unfold here, sheet_cels. cbn [flat_map]. now rewrite app_nil_r. Qed.
Lemma here_eq k dx dy sf : nth_error (api_frames s) k = Some sf -> here (k, dx, dy) = map (placed_cel dx dy) (sf_cels sf).
Proof. intro H. unfold here, sheet_cels. cbn [flat_map]. now rewrite H, app_nil_r. Qed.
Lemma stacked_both x y a b : forall back m p, stacked c inflate s' sel x y a back m -> stacked c inflate s' sel x y b m p ->
  stacked c inflate s' sel x y (a ++ b) back p.
Proof.
  induction a as [|cel a IH]; intros back m p H K; inversion H; subst; cbn [app]; [exact K|apply stacked_skip; eauto|eapply stacked_draw; eauto].
Qed.
Lemma stacked_none x y cels : (forall cel, In cel cels -> drawn s' sel cel = None \/ covers cel x y = false) ->
  forall back, stacked c inflate s' sel x y cels back back.
Proof.
  induction cels as [|cel cels IH]; intros H back; [constructor|]. apply stacked_skip; [apply H; now left|]. apply IH. intros d Hd. apply H. now right.
Qed.
Definition stays (p : spot) : Prop := let '(k, _, _) := p in exists sf, nth_error (api_frames s) k = Some sf /\ kept_inside s sel sf.
Lemma elsewhere p x y : stays p -> ~ in_place s p x y -> forall cel, In cel (here p) -> drawn s' sel cel = None \/ covers cel x y = false.
Proof.
  destruct p as [[k dx] dy]. intros (sf & Hk & Hin) Hout cel Hcel. rewrite (here_eq k dx dy sf Hk) in Hcel. apply in_map_iff in Hcel as (d & <- & Hd).
  rewrite placed_drawn, placed_covers. destruct (drawn s sel d) as [l|] eqn:E; [right|now left].
  destruct (covers d (x - dx) (y - dy)) eqn:C; [|reflexivity]. exfalso. apply Hout. destruct (Hin d l _ _ Hd E C) as [? ?]. cbn [in_place]. lia.
Qed.
Lemma all_elsewhere ps x y : Forall stays ps -> (forall p, In p ps -> ~ in_place s p x y) -> forall back, stacked c inflate s' sel x y (sheet_cels s ps) back back.
Proof.
  induction 1 as [|p ps Hp _ IH]; intros H back; [constructor|]. rewrite sheet_cons. eapply stacked_both.
  - apply stacked_none. apply elsewhere; [exact Hp|]. apply H. now left.
  - apply IH. intros q Hq. apply H. now right.
Qed.
Lemma one_place ps : Forall stays ps -> apart s ps -> forall k dx dy sf x y back p, In (k, dx, dy) ps -> nth_error (api_frames s) k = Some sf ->
  in_place s (k, dx, dy) x y -> stacked c inflate s sel (x - dx) (y - dy) (sf_cels sf) back p ->
  stacked c inflate s' sel x y (sheet_cels s ps) back p.
Proof.
  induction 1 as [|q ps Hq HA IH]; intros HAp k dx dy sf x y back p Hin Hk Hp HS; [destruct Hin|]. destruct HAp as [A1 A2]. rewrite sheet_cons. destruct Hin as [->|Hin].
  - eapply stacked_both; [|apply all_elsewhere; [exact HA|]].
    + rewrite (here_eq k dx dy sf Hk). apply placed_stacked. exact HS.
    + intros q Hq'. now apply A1.
  - eapply stacked_both; [apply stacked_none; apply elsewhere; [exact Hq|]|].
    + intro Hx. exact (A1 _ x y Hin Hx Hp).
    + now apply (IH A2 k dx dy sf).
Qed.
Definition in_place_dec p x y : {in_place s p x y} + {~ in_place s p x y}.
Proof.
  destruct p as [[k dx] dy]. cbn [in_place].
  destruct (Z_le_dec dx x), (Z_lt_dec x (dx + canvas_width s)), (Z_le_dec dy y), (Z_lt_dec y (dy + canvas_height s)); (left; lia) || (right; lia).
Defined.
Lemma somewhere ps x y : (exists p, In p ps /\ in_place s p x y) \/ forall p, In p ps -> ~ in_place s p x y.
Proof.
  induction ps as [|p ps IH]; [right; intros p []|]. destruct (in_place_dec p x y) as [H|H]; [left; exists p; split; [now left|exact H]|].
  destruct IH as [(q & Hq & IH)|IH]; [left; exists q; split; [now right|exact IH]|right]. intros q [<-|Hq]; auto.
Qed.

Lemma sheets j sf' ps (T R : spot -> bytes) t' : nth_error (api_frames s') j = Some sf' -> sf_cels sf' = sheet_cels s ps -> apart s ps ->
  is_bytes t' -> canvas_size s' <= zlen t' ->
  (forall k dx dy, In (k, dx, dy) ps -> (exists sf, nth_error (api_frames s) k = Some sf /\ kept_inside s sel sf) /\
     is_bytes (T (k, dx, dy)) /\ render_frame c inflate s (Z.of_nat k) (T (k, dx, dy)) sel = Ok (R (k, dx, dy)) /\
     holds_at s s' (k, dx, dy) (T (k, dx, dy)) t') ->
  exists r', render_frame c inflate s' (Z.of_nat j) t' sel = Ok r' /\
    (forall p, In p ps -> holds_at s s' p (R p) r') /\
    forall x y, 0 <= x < canvas_width s' -> 0 <= y < canvas_height s' -> (forall p, In p ps -> ~ in_place s p x y) ->
      pixel (canvas_width s') r' x y = pixel (canvas_width s') t' x y.
Proof.
  intros Hk' HS HA Hb' Hz HP.
  assert (HST : Forall stays ps) by (apply Forall_forall; intros [[k dx] dy] Hp; exact (proj1 (HP k dx dy Hp))).
  assert (Here : forall k dx dy x y, In (k, dx, dy) ps -> in_place s (k, dx, dy) x y -> 0 <= x < canvas_width s' -> 0 <= y < canvas_height s' ->
    exists back p, pixel (canvas_width s') t' x y = Some back /\ pixel (canvas_width s) (R (k, dx, dy)) (x - dx) (y - dy) = Some p /\
      stacked c inflate s' sel x y (sheet_cels s ps) back p).
  { intros k dx dy x y Hp Hxy Hx Hy. destruct (HP k dx dy Hp) as ((sf & Hk & Hin) & Hb & Hok & HT).
    apply (made_exactly c s Hc Hty Hfit inflate Hinf sel k sf _ _ Hk Hb) in Hok. destruct Hok as (_ & _ & _ & _ & Hpx).
    pose proof Hxy as Hxy0. cbn [in_place] in Hxy0. destruct (Hpx (x - dx) (y - dy) ltac:(lia) ltac:(lia)) as (b & p & B1 & B2 & B3).
    exists b, p. split; [|split; [exact B2|]].
    - rewrite <- B1. exact (HT x y Hx Hy Hxy).
    - now apply (one_place ps HST HA k dx dy sf). }
  assert (X : can_stack c inflate s' sel (sf_cels sf') t').
  { rewrite HS. split.
    - intros cel l Hcel Hd. apply in_flat_map in Hcel as ([[k dx] dy] & Hp & Hcel). destruct (HP k dx dy Hp) as ((sf & Hk & _) & Hb & Hok & _).
      rewrite Hk in Hcel. apply in_map_iff in Hcel as (d & <- & Hcel). rewrite placed_drawn in Hd.
      apply (made_exactly c s Hc Hty Hfit inflate Hinf sel k sf _ _ Hk Hb) in Hok. destruct Hok as (_ & _ & _ & Hcels & _).
      destruct (Hcels d l Hcel Hd) as [[v Hv] Hm]. split; [|exact Hm]. exists v. now apply placed_view.
    - intros x y back Hx Hy E. destruct (somewhere ps x y) as [([[k dx] dy] & Hp & Hxy)|Hno].
      + destruct (Here k dx dy x y Hp Hxy Hx Hy) as (b & p & B1 & _ & B3). assert (b = back) as -> by congruence. eauto.
      + exists back. now apply all_elsewhere. }
  apply (stacks c s' Hc Hty' inflate Hinf Hfit' sel _ (frames_fine c s' Hty' Hfit' j _ Hk') t' Hb' Hz) in X. destruct X as [r' X].
  exists r'. assert (RR : render_frame c inflate s' (Z.of_nat j) t' sel = Ok r').
  { rewrite (made_frame_eq c s' Hty' inflate Hfit' sel j _ t' Hk'). destruct (Z.ltb_spec (zlen t') (canvas_size s')); [lia|exact X]. }
  split; [exact RR|]. apply (made_exactly c s' Hc Hty' Hfit' inflate Hinf sel j _ t' r' Hk' Hb') in RR. destruct RR as (_ & _ & _ & _ & RR). rewrite HS in RR. split.
  - intros [[k dx] dy] Hp x y Hx Hy Hxy. destruct (RR x y Hx Hy) as (b' & p' & B1' & B2' & B3'). destruct (Here k dx dy x y Hp Hxy Hx Hy) as (b & p & B1 & B2 & B3).
    assert (b' = b) as -> by congruence. rewrite (stacked_unique c s' inflate sel x y _ _ _ _ B3' B3) in B2'. congruence.
  - intros x y Hx Hy Hno. destruct (RR x y Hx Hy) as (b' & p' & B1' & B2' & B3').
    rewrite (stacked_unique c s' inflate sel x y _ _ _ _ B3' (all_elsewhere ps x y HST Hno b')) in B2'. congruence.
Qed.
End Sheet.

(** ** All frames in a row *)
Section Strip.
Context (c : cfg) (s : ase_file) (Hty : typed c s).
Definition room_for_all : Prop := forall k sf cel, nth_error (api_frames s) k = Some sf -> In cel (sf_cels sf) ->
  fst (fc_origin cel) + Z.of_nat k * canvas_width s < 2 ^ 15.
Lemma row_in k dx dy : In (k, dx, dy) (in_a_row s) <-> (k < length (api_frames s))%nat /\ dx = Z.of_nat k * canvas_width s /\ dy = 0.
Proof.
  unfold in_a_row. rewrite in_map_iff. split.
  - intros (k0 & E & H). injection E as -> <- <-. apply in_seq in H. split; [lia|auto].
  - intros (H & -> & ->). exists k. split; [reflexivity|]. apply in_seq. lia.
Qed.
Lemma row_apart : apart s (in_a_row s).
Proof.
  destruct Hty as (HW & _). unfold in_a_row. generalize (length (api_frames s)) as n. intro n. generalize 0%nat as a.
  induction n as [|n IH]; intro a; cbn [seq map apart]; [exact I|]. split; [|apply IH].
  intros q x y Hq Hp Hx. apply in_map_iff in Hq as (k & <- & Hk). apply in_seq in Hk. cbn [in_place] in *.
  assert (Z.of_nat a + 1 <= Z.of_nat k) by lia. nia.
Qed.
Lemma row_cels cel : In cel (sheet_cels s (in_a_row s)) -> exists k sf d, nth_error (api_frames s) k = Some sf /\ In d (sf_cels sf) /\
  cel = placed_cel (Z.of_nat k * canvas_width s) 0 d.
Proof.
  intro H. apply in_flat_map in H as ([[k dx] dy] & Hp & H). apply row_in in Hp as (_ & -> & ->).
  destruct (nth_error (api_frames s) k) as [sf|] eqn:Hk; [|destruct H]. apply in_map_iff in H as (d & <- & H). eauto 7.
Qed.
Lemma strip_typed : zlen (api_frames s) * canvas_width s < 2 ^ 16 -> room_for_all -> typed c (strip s).
Proof.
  intros Hn Hroom. pose proof Hty as (HW & HH & HP & HI & HL & HF). split; [|split; [exact HH|split; [exact HP|split; [exact HI|split; [exact HL|]]]]].
  - unfold canvas_width at 1 2. unfold strip. cbn [af_file f_header h_width]. fold (canvas_width s). pose proof (zlen_nonneg (api_frames s)). split; [nia|exact Hn].
  - constructor; [|constructor]. cbn [sf_cels]. apply Forall_forall. intros cel Hcel. apply row_cels in Hcel as (k & sf & d & Hk & Hd & ->).
    pose proof (Hroom k sf d Hk Hd) as HR. rewrite Forall_forall in HF. specialize (HF sf (nth_error_In _ _ Hk)). rewrite Forall_forall in HF.
    destruct (HF d Hd) as (A & B & C). split; [|split; [|exact C]]; cbn [placed_cel fc_origin fst snd].
    + split; [|exact HR]. assert (0 <= Z.of_nat k * canvas_width s) by (apply Z.mul_nonneg_nonneg; lia). lia.
    + lia.
Qed.
Lemma strip_fits : made_fits c s -> canvas_size (strip s) < 2 ^ usize_bits c -> made_fits c (strip s).
Proof.
  intros (F1 & F2 & F3) HS. split; [exact HS|]. split; [exact F2|]. constructor; [|constructor]. cbn [sf_cels]. apply Forall_forall.
  intros cel Hcel. apply row_cels in Hcel as (k & sf & d & Hk & Hd & ->). unfold room. cbn [placed_cel fc_size].
  rewrite Forall_forall in F3. specialize (F3 sf (nth_error_In _ _ Hk)). rewrite Forall_forall in F3. exact (F3 d Hd).
Qed.
End Strip.
Definition blank (s : ase_file) : bytes := repeat 0 (Z.to_nat (canvas_size s)).
Lemma blank_bytes s : is_bytes (blank s).
Proof. apply Forall_forall. intros x H. apply repeat_spec in H. subst. unfold is_byte. lia. Qed.
Lemma strips c inflate s sel (R : nat -> bytes) : cfg_ok c -> inflate_ok inflate -> typed c s -> made_fits c s ->
  zlen (api_frames s) * canvas_width s < 2 ^ 16 -> canvas_size (strip s) < 2 ^ usize_bits c ->
  (forall k sf cel, nth_error (api_frames s) k = Some sf -> In cel (sf_cels sf) -> fst (fc_origin cel) + Z.of_nat k * canvas_width s < 2 ^ 15) ->
  (forall k sf, nth_error (api_frames s) k = Some sf -> kept_inside s sel sf /\
     render_frame c inflate s (Z.of_nat k) (repeat 0 (Z.to_nat (canvas_size s))) sel = Ok (R k)) ->
  exists r, render_frame c inflate (strip s) 0 (repeat 0 (Z.to_nat (canvas_size (strip s)))) sel = Ok r /\
    forall k x y, (k < length (api_frames s))%nat -> 0 <= x < canvas_width s -> 0 <= y < canvas_height s ->
      pixel (canvas_width (strip s)) r (x + Z.of_nat k * canvas_width s) y = pixel (canvas_width s) (R k) x y.
Proof.
  intros Hc Hinf Hty Hfit Hn Hsize Hroom HR. fold (blank s) in HR. fold (blank (strip s)).
  pose proof (strip_typed c s Hty Hn Hroom) as Hty'. pose proof (strip_fits c s Hfit Hsize) as Hfit'.
  assert (EW : canvas_width (strip s) = zlen (api_frames s) * canvas_width s) by reflexivity.
  assert (EH : canvas_height (strip s) = canvas_height s) by reflexivity.
  pose proof Hty as (HW & HH & _). pose proof Hty' as (HW' & _).
  destruct (sheets c inflate s (strip s) sel Hc Hinf Hty Hty' Hfit Hfit') with (j := O) (ps := in_a_row s) (T := fun _ : spot => blank s)
    (R := fun p : spot => R (fst (fst p))) (t' := blank (strip s)) (sf' := {| sf_duration := 100; sf_origin := (0, 0); sf_cels := sheet_cels s (in_a_row s) |}) as (r & RR & RP & _).
  - repeat split.
  - reflexivity.
  - reflexivity.
  - now apply (row_apart c).
  - apply blank_bytes.
  - unfold blank, zlen. rewrite repeat_length. lia.
  - intros k dx dy Hp. apply row_in in Hp as (Hk & -> & ->). cbn [fst]. destruct (nth_error (api_frames s) k) as [sf|] eqn:E; [|apply nth_error_None in E; lia].
    destruct (HR k sf E) as [H1 H2]. split; [eauto|]. split; [apply blank_bytes|]. split; [exact H2|].
    intros x y Hx Hy Hxy. cbn [in_place] in Hxy. unfold blank, canvas_size. rewrite !zeros_pixel by lia. reflexivity.
  - exists r. split; [exact RR|]. intros k x y Hk Hx Hy.
    assert (Hp : In (k, Z.of_nat k * canvas_width s, 0) (in_a_row s)) by (apply row_in; auto).
    assert (HX : 0 <= x + Z.of_nat k * canvas_width s < canvas_width (strip s)).
    { rewrite EW. unfold zlen. assert (Z.of_nat k + 1 <= Z.of_nat (length (api_frames s))) by lia. nia. }
    pose proof (RP _ Hp (x + Z.of_nat k * canvas_width s) y HX ltac:(rewrite EH; lia) ltac:(cbn [in_place]; lia)) as G. cbn [fst] in G. rewrite G. f_equal; lia.
Qed.
Lemma strip_loaded c i s : cfg_ok c -> is_bytes i -> addressable c i -> load c i = Ok s -> sprite_fits c s ->
  forall inflate sel (R : nat -> bytes), inflate_ok inflate ->
  zlen (api_frames s) * canvas_width s < 2 ^ 16 -> canvas_size (strip s) < 2 ^ usize_bits c ->
  (forall k sf cel, nth_error (api_frames s) k = Some sf -> In cel (sf_cels sf) -> fst (fc_origin cel) + Z.of_nat k * canvas_width s < 2 ^ 15) ->
  (forall k sf, nth_error (api_frames s) k = Some sf -> kept_inside s sel sf /\
     render_frame c inflate s (Z.of_nat k) (repeat 0 (Z.to_nat (canvas_size s))) sel = Ok (R k)) ->
  exists r, render_frame c inflate (strip s) 0 (repeat 0 (Z.to_nat (canvas_size (strip s)))) sel = Ok r /\
    forall k x y, (k < length (api_frames s))%nat -> 0 <= x < canvas_width s -> 0 <= y < canvas_height s ->
      pixel (canvas_width (strip s)) r (x + Z.of_nat k * canvas_width s) y = pixel (canvas_width s) (R k) x y.
Proof.
  intros Hc Hi Ha Hl Hf inflate sel R Hinf. destruct (loaded_typed c i s Hc Hi Ha Hl) as [HT HF]. apply strips; auto.
Qed.
