(** A frame that repeats another one by links (C125). *)
From Coq Require Import Sorted.
From Verif.Model Require Import Loader.
From Verif.Spec Require Import Bytes Format FileSpec LoaderSpec Loads Patch Held.
From Verif.Proofs Require Import ParseLib FileFacts FileProps LoaderFacts LoaderProps RenderFacts LoadsProps EditFacts EditProps FileFinal ConvertProps PatchProps.

Definition link_cel (fc : frame_cel) (p : Z) : cel_chunk :=
  {| cc_layer_index := fc_layer_index fc; cc_x := fst (fc_origin fc); cc_y := snd (fc_origin fc);
     cc_opacity := 255; cc_z_index := 0; cc_content := CLinked p; cc_user_data := None |}.

Lemma slots_sorted ks : forall cs, StronglySorted Z.lt ks -> StronglySorted Z.lt (map cc_layer_index cs) ->
  Forall (fun x => In (cc_layer_index x) ks) cs ->
  flat_map (fun o : option cel_chunk => match o with Some x => [x] | None => [] end) (map (fun k => cel_at k cs) ks) = cs.
Proof.
  induction ks as [|k ks IH]; intros cs Hk Hc HI.
  - destruct HI as [|x cs Hx]; [reflexivity|destruct Hx].
  - inversion Hk as [|? ? Hk' Hk2]; subst. rewrite Forall_forall in Hk2. cbn [map flat_map].
    destruct cs as [|x cs]; [|destruct (Z.eq_dec (cc_layer_index x) k) as [E|E]].
    + cbn. apply (IH [] Hk' (SSorted_nil _)). constructor.
    + cbn [map] in Hc. inversion Hc as [|? ? Hc' Hc2]; subst. inversion HI as [|? ? _ HI']; subst.
      rewrite Forall_map, Forall_forall in Hc2. rewrite Forall_forall in HI'.
      assert (Eh : cel_at (cc_layer_index x) (x :: cs) = Some x).
      { apply (cel_at_here _ [] x cs eq_refl). apply Forall_forall; intros y Hy; apply Hc2 in Hy; lia. }
      rewrite Eh.
      cbn [app]. f_equal. etransitivity; [|apply (IH cs Hk' Hc')].
      * f_equal. apply map_ext_in. intros k' Hin. apply (cel_at_else k' [] x cs). apply Hk2 in Hin. lia.
      * apply Forall_forall. intros y Hy. destruct (HI' y Hy) as [E|E]; [|exact E]. apply Hc2 in Hy. lia.
    + assert (HI2 : Forall (fun x => In (cc_layer_index x) ks) (x :: cs)).
      { inversion HI as [|? ? [E2|E2] HI']; subst; [lia|]. apply Hk2 in E2. cbn [map] in Hc. inversion Hc as [|? ? Hc' Hc2]; subst.
        rewrite Forall_map, Forall_forall in Hc2. rewrite Forall_forall in HI'. constructor.
        - inversion HI as [|? ? [E3|E3] _]; subst; [lia|exact E3].
        - apply Forall_forall. intros y Hy. destruct (HI' y Hy) as [E3|E3]; [|exact E3]. apply Hc2 in Hy. lia. }
      assert (En : cel_at k (x :: cs) = None).
      { unfold cel_at. destruct (find _ _) eqn:F; [|reflexivity]. apply find_some in F as [F1 F2].
        apply in_rev in F1. rewrite Forall_forall in HI2. apply HI2, Hk2 in F1. lia. }
      rewrite En. cbn [app]. now apply IH.
Qed.
Lemma zrange_sorted n : StronglySorted Z.lt (zrange n).
Proof.
  unfold zrange. generalize 0%nat as a. induction (Z.to_nat n) as [|m IH]; intro a; cbn; constructor; auto.
  apply Forall_forall. intros z Hz. apply in_map_iff in Hz as (b & <- & Hb). apply in_seq in Hb. lia.
Qed.

Lemma zlen_encode t d : zlen (encode_chunk t d) = zlen d + 6.
Proof. unfold encode_chunk. rewrite !zlen_app, !zlen_le. lia. Qed.
Lemma zlen_zeros k : zlen (repeat 0 k) = Z.of_nat k.
Proof. unfold zlen. now rewrite repeat_length. Qed.
Lemma link_length fc p : zlen (link fc p) = 24.
Proof. unfold link. rewrite zlen_encode, !zlen_app, zlen_zeros. unfold les. rewrite !zlen_le. reflexivity. Qed.

Lemma link_chunk err fc p : u16 (fc_layer_index fc) -> i16 (fst (fc_origin fc)) -> i16 (snd (fc_origin fc)) -> u16 p ->
  chunk_l err (ChCel (link_cel fc p)) (link fc p).
Proof.
  intros H1 H2 H3 H4. eexists. split; [rewrite link_length; unfold u32, uint; lia|]. split.
  2:{ rewrite link_length. cbn [chunk_code]. unfold link, encode_chunk. do 2 f_equal. }
  cbn [payload_l]. exists 1, (repeat 0 5), (le 2 p). cbn [link_cel cc_layer_index cc_x cc_y cc_opacity cc_z_index cc_content cc_user_data].
  do 3 (split; [assumption|]). split; [unfold u8, uint; lia|]. split; [unfold u16, uint; lia|]. split; [unfold i16, sint; lia|].
  split; [reflexivity|]. split; [|split; reflexivity]. split; [reflexivity|]. split; [exact H4|]. exists []. now rewrite app_nil_r.
Qed.

Lemma is_bytes_link fc p : is_bytes (link fc p).
Proof.
  unfold link, encode_chunk, is_bytes. rewrite !Forall_app. repeat split; try apply is_bytes_le.
  repeat constructor; unfold is_byte; lia.
Qed.

Section Held.
Context (c : cfg) (i : bytes) (s : ase_file) (k : nat) (sf : sframe) (es : list bytes) (d : Z).
Context (Hc : cfg_ok c) (Hi : is_bytes i) (Hl : load c i = Ok s) (Hk : nth_error (af_frames s) k = Some sf).
Context (He : links s sf es) (Hd : u16 d) (Hu : u32 (zlen (hold d es))) (Ha : addressable c (i ++ hold d es)).

Lemma addr_left : addressable c i.
Proof. revert Ha. unfold addressable. rewrite zlen_app. pose proof (zlen_nonneg (hold d es)). lia. Qed.

Lemma held : exists s', load c (i ++ hold d es) = Ok s' /\ same_outline s s' /\ af_images s' = af_images s /\
  af_frames s' = af_frames s ++ [with_duration sf d].
Proof.
  pose proof addr_left as Ha1. pose proof Hl as Hl'. apply (load_exactly c i s Hc Hi Ha1) in Hl' as (raw & Hraw & Hs).
  pose proof Hs as ((pal & Hp & Efile & Hall) & HL & HT & HI & HF).
  destruct (loaded_frame c i s Hl k sf Hk) as (fr & Hfr & Hdur & Hor & HFk).
  pose proof (parsed_wf c i _ Hc Hi Ha1 (loaded_parse c i s Hl)) as Hwf.
  assert (Hw : wf_frame fr) by (rewrite Forall_forall in Hwf; exact (Hwf fr (nth_error_In _ _ Hfr))).
  (* the chunks of the new frame *)
  assert (HC : exists cs, Forall2 (fun fc x => exists p, home s fc p /\ u16 p /\ x = link_cel fc p) (sf_cels sf) cs /\
    Forall2 (fun x e => chunk_l (kept_error c) x e) (map ChCel cs) es).
  { unfold links in He. 
    assert (Hb : Forall (fun fc => u16 (fc_layer_index fc) /\ i16 (fst (fc_origin fc)) /\ i16 (snd (fc_origin fc))) (sf_cels sf)).
    { apply Forall_forall. intros fc Hin. apply In_nth_error in Hin as [m Hm].
      destruct (Forall2_nth_r _ _ _ _ _ HFk Hm) as (x & Hx & O1 & O2 & _). rewrite O1, O2. cbn [fst snd].
      destruct (locate raw s k fr x Hs Hfr (nth_error_In _ _ Hx)) as (F1 & rf & F2 & P & x0 & Q & A & B & Ef & El & Ec & HA & HB & ->).
      destruct (file_bytes _ raw F1 rf F2 P (ChCel x0) Q i Ef Ec Hraw) as (a & ex & b & _ & (dd & _ & Hpl & _) & _).
      destruct Hpl as (ty & ig & body & H1 & H2 & H3 & _). cbn. auto. }
    clear -He Hb. induction He as [|fc e l l' (p & Up & Hh & ->) H IH].
    - exists []. split; constructor.
    - inversion Hb as [|? ? (B1 & B2 & B3) Hb']; subst. destruct (IH H Hb') as (cs & C1 & C2).
      exists (link_cel fc p :: cs). split; [constructor; eauto|]. cbn [map]. constructor; [|exact C2]. now apply link_chunk. }
  destruct HC as (cs & HC1 & HC2).
  pose (nf := {| rf_duration := d; rf_chunks := map ChCel cs |}).
  pose (raw' := re_file raw (rw_frames raw ++ [nf])).
  assert (Hnf : frame_l (kept_error c) nf (hold d es)).
  { exists 0, (zlen es), [0; 0], (concat es), []. cbn [nf rf_duration rf_chunks].
    assert (El : zlen (hold d es) = zlen (concat es) + 16).
    { unfold hold. rewrite !zlen_app, !zlen_le. change (zlen [0; 0]) with 2. lia. }
    assert (Eles : zlen es = zlen (map ChCel cs)) by (unfold zlen; now rewrite (Forall2_length _ _ _ HC2)).
    assert (Ub : zlen es <= zlen (concat es)).
    { clear -He. unfold links in He. induction He as [|fc e l l' (p & _ & _ & ->) H IH]; [reflexivity|]. specialize (IH H).
      cbn [concat]. rewrite zlen_app, link_length. unfold zlen in *. cbn [length]. lia. }
    split; [exact Hu|]. split; [unfold u16, uint; lia|]. split; [exact Hd|]. split; [reflexivity|].
    split. { unfold u32, uint in *. pose proof (zlen_nonneg es). lia. }
    split. { rewrite <- Eles. destruct (Z.eqb_spec (zlen es) 0); [assumption|reflexivity]. }
    split. { exists es. split; [exact HC2|reflexivity]. }
    rewrite app_nil_r, El. reflexivity. }
  assert (Ecs : spec_cels (map ChCel cs) = map (fun x => cel_with x None) cs).
  { clear. induction cs as [|x cs IH]; [reflexivity|]. unfold spec_cels in *. cbn [map suffixes flat_map app]. rewrite IH.
    destruct cs; reflexivity. }
  assert (Ecs2 : map (fun x => cel_with x None) cs = cs).
  { clear -HC1. induction HC1 as [|fc x l l' (p & _ & _ & ->) H IH]; [reflexivity|]. cbn [map]. rewrite IH. reflexivity. }
  rewrite Ecs2 in Ecs. clear Ecs2.
  assert (Hno : forall X (g : chunk -> list user_data_chunk -> list X), (forall x us, g (ChCel x) us = []) -> proj g (map ChCel cs) = []).
  { intros X g Hg. clear -Hg. unfold proj. induction cs as [|x cs IH]; [reflexivity|]. cbn [map suffixes flat_map]. now rewrite Hg, IH. }
  assert (Hall' : forall X (h : raw_frame -> list X), h nf = [] -> flat_map h (rw_frames raw') = flat_map h (rw_frames raw)).
  { intros X h H. unfold raw'. cbn [re_file rw_frames]. rewrite flat_map_app. cbn [flat_map]. rewrite H, !app_nil_r. reflexivity. }
  assert (El' : spec_all_layers raw' = spec_all_layers raw) by (apply Hall'; exact (Hno _ g_layer (fun _ _ => eq_refl))).
  assert (Et' : flat_map (fun f => spec_tags (rf_chunks f)) (rw_frames raw') = flat_map (fun f => spec_tags (rf_chunks f)) (rw_frames raw))
    by (apply Hall'; exact (Hno _ g_tags (fun _ _ => eq_refl))).
  assert (Es' : flat_map (fun f => spec_slices (rf_chunks f)) (rw_frames raw') = flat_map (fun f => spec_slices (rf_chunks f)) (rw_frames raw))
    by (apply Hall'; exact (Hno _ g_slice (fun _ _ => eq_refl))).
  assert (Hne : rw_frames raw <> []) by now destruct Hraw as (? & ? & _ & ? & _).
  assert (Eu' : match rw_frames raw' with f :: _ => spec_sprite_data (rf_chunks f) | [] => None end =
                match rw_frames raw with f :: _ => spec_sprite_data (rf_chunks f) | [] => None end).
  { unfold raw'. cbn [re_file rw_frames]. destruct (rw_frames raw); [contradiction|reflexivity]. }
  assert (Hpl : forall X (g : chunk -> list X), (forall x, g (ChCel x) = []) ->
    flat_map g (all_chunks (rw_frames raw')) = flat_map g (all_chunks (rw_frames raw))).
  { intros X g Hg. rewrite !flat_chunks. apply Hall'. rewrite proj_plain. cbn [nf rf_chunks]. now apply Hno. }
  assert (Ep : palette_of raw' = palette_of raw).
  { unfold palette_of. change (rw_header raw') with (rw_header raw).
    assert (E : spec_palette (h_transparent_index (rw_header raw)) (rw_frames raw') = spec_palette (h_transparent_index (rw_header raw)) (rw_frames raw)).
    { unfold spec_palette, spec_writes, new_palettes, palettes_0004, palettes_0011. rewrite !Hpl by reflexivity. reflexivity. }
    now rewrite E. }
  pose (m := fun f : raw_frame => {| fr_duration := rf_duration f; fr_cels := slots (layer_count raw) (spec_cels (rf_chunks f)) |}).
  assert (Efs : f_frames (af_file s) = map m (rw_frames raw)) by now rewrite Efile.
  assert (Efs' : f_frames (file_of raw' pal) = map m (rw_frames raw) ++ [m nf]).
  { unfold file_of. cbn [f_frames]. unfold layer_count. rewrite El'. unfold raw'. cbn [re_file rw_frames]. rewrite map_app. reflexivity. }
  (* its cels *)
  assert (Elay : map cc_layer_index cs = map cc_layer_index (filled fr)).
  { transitivity (map fc_layer_index (sf_cels sf)).
    - clear -HC1. induction HC1 as [|fc x l l' (p & _ & _ & ->) H IH]; [reflexivity|]. cbn. now rewrite IH.
    - clear -HFk. induction HFk as [|x fc l l' Hx H IH]; [reflexivity|]. cbn [map]. rewrite IH. f_equal. apply Hx. }
  assert (Hrange : Forall (fun x => In (cc_layer_index x) (zrange (layer_count raw))) cs).
  { apply Forall_forall. intros x Hx. assert (Hx' : In (cc_layer_index x) (map cc_layer_index (filled fr))) by (rewrite <- Elay; now apply in_map).
    apply in_map_iff in Hx' as (y & Ey & Hy). apply filled_in in Hy as (j & Hj). rewrite <- Ey, (Hw j y Hj). apply zrange_in.
    assert (j < length (fr_cels fr))%nat by (apply nth_error_Some; congruence).
    rewrite Efs, nth_error_map in Hfr. destruct (nth_error (rw_frames raw) k); [|discriminate]. injection Hfr as <-. cbn [m fr_cels] in *.
    unfold slots in *. rewrite map_length, zrange_length in *. lia. }
  assert (Efill : filled (m nf) = cs).
  { unfold filled, m, nf. cbn [fr_cels rf_chunks]. rewrite Ecs. unfold slots. apply slots_sorted; [apply zrange_sorted| |exact Hrange].
    rewrite Elay. apply (filled_sorted (fr_cels fr) 0). intros j x Hj. rewrite (Hw j x Hj). lia. }
  assert (Hlink : Forall (fun x => exists p, cc_content x = CLinked p) cs).
  { clear -HC1. induction HC1 as [|fc x l l' (p & _ & _ & ->) H IH]; constructor; eauto. exists p. reflexivity. }
  assert (Eim : image_cels (map m (rw_frames raw) ++ [m nf]) = image_cels (map m (rw_frames raw))).
  { unfold image_cels, file_cels. rewrite numbered_app, !flat_map_app. cbn [numbered flat_map]. rewrite Efill, app_nil_r.
    rewrite <- (app_nil_r (flat_map _ (flat_map _ (numbered 0 (map m (rw_frames raw)))))) at 2. f_equal.
    generalize (0 + zlen (map m (rw_frames raw))) as kk. intro kk. clear -Hlink. induction Hlink as [|x l (p & E) H IH]; [reflexivity|].
    cbn [map flat_map]. rewrite E. exact IH. }
  assert (Hsh : forall kk y cc, shows (map m (rw_frames raw)) kk y cc -> shows (map m (rw_frames raw) ++ [m nf]) kk y cc).
  { intros kk y cc (A1 & A2 & A3 & p' & im' & A4 & A5 & A6). repeat split; auto. exists p', im'. rewrite Eim. auto. }
  exists {| af_file := file_of raw' pal; af_layers := af_layers s; af_tags := af_tags s; af_images := af_images s;
            af_frames := af_frames s ++ [with_duration sf d] |}.
  split; [|split; [|split; reflexivity]].
  - apply load_exactly; [exact Hc| |exact Ha|].
    { apply Forall_app. split; [exact Hi|]. unfold hold. rewrite !Forall_app. repeat split; try apply is_bytes_le.
      - repeat constructor; unfold is_byte; lia.
      - clear -He. unfold links in He. induction He as [|fc e l l' (p & _ & _ & ->) H IH]; [constructor|]. specialize (IH H). cbn [concat].
        apply Forall_app. split; [apply is_bytes_link|exact IH]. }
    exists raw'. split.
    + destruct Hraw as (e1 & e2 & R1 & R2 & R3 & ->). exists e1, (e2 ++ hold d es). split; [exact R1|].
      split; [unfold raw'; cbn [re_file rw_frames]; now destruct (rw_frames raw)|]. split; [|now rewrite app_assoc].
      apply seq_l_app; [exact R3|]. rewrite <- (app_nil_r (hold d es)). apply seq_l_cons; [exact Hnf|apply seq_l_nil].
    + unfold stands_for. cbn [af_file af_layers af_tags af_images af_frames]. split.
      { exists pal. rewrite Ep. repeat split; auto. unfold layer_count in *. rewrite El'. unfold frame_cels, raw' in *. cbn [re_file rw_frames].
        rewrite flat_map_app. apply Forall_app. split; [exact Hall|]. cbn [flat_map nf rf_chunks]. rewrite app_nil_r, Ecs.
        eapply Forall_impl; [|exact Hrange]. cbn. intros x Hx. apply zrange_in in Hx. apply Hx. }
      split. { rewrite HL, Efile. unfold file_of. cbn [f_layers]. now rewrite El'. }
      split. { rewrite HT, Efile. unfold file_of. cbn [f_tags]. now rewrite Et'. }
      rewrite Efs'. split; [rewrite Eim, HI, Efs; reflexivity|].
      rewrite numbered_app. apply Forall2_app.
      * rewrite Efs in HF. clear -HF Hsh. induction HF as [|[kk f] g ns gs (D1 & D2 & D3) HR IH]; constructor; [|exact IH].
        split; [exact D1|]. split; [exact D2|]. clear -D3 Hsh. induction D3; constructor; auto.
      * cbn [numbered]. constructor; [|constructor]. split; [reflexivity|]. split; [exact Hor|]. rewrite Efill. cbn [with_duration sf_cels].
        rewrite Efs in HFk. generalize (0 + zlen (map m (rw_frames raw))) as kk. intro kk.
        assert (Hin : forall fc, In fc (sf_cels sf) -> 0 <= fc_image_index fc /\ exists im, nth_error (image_cels (map m (rw_frames raw))) (Z.to_nat (fc_image_index fc)) = im /\ forall p q i2, im = Some (p, q, i2) -> fc_size fc = (im_width i2, im_height i2)).
        { intros fc Hin. apply In_nth_error in Hin as [mm Hm]. destruct (Forall2_nth_r _ _ _ _ _ HFk Hm) as (x & _ & _ & _ & O3 & p & im & _ & O5 & O6).
          split; [exact O3|]. eexists. split; [reflexivity|]. intros p' q' i2 E. rewrite O5 in E. injection E as <- <- <-. exact O6. }
        clear -HC1 Hin Eim Efs. set (fs' := map m (rw_frames raw) ++ [m nf]) in *. clearbody fs'. clear nf. induction HC1 as [|fc x l l' (p & (im & Him) & Up & ->) H IH]; constructor.
        -- destruct (Hin fc (or_introl eq_refl)) as (O3 & im' & E1 & E2). rewrite Efs in Him.
           split; [cbn; now destruct (fc_origin fc)|]. split; [reflexivity|]. split; [exact O3|].
           exists p, im. split; [reflexivity|]. rewrite Eim. split; [exact Him|]. rewrite E1 in Him. exact (E2 _ _ _ Him).
        -- apply IH. intros fc' Hf. apply Hin. now right.
  - unfold same_outline. cbn [af_file af_layers af_tags]. rewrite Efile. unfold file_of.
    cbn [f_header f_palette f_layers f_tags f_slices f_user_data]. rewrite El', Et', Es', Eu'. repeat split; reflexivity.
Qed.
End Held.

Lemma frames_only c inflate hasher s s' k k' sf sf' :
  f_header (af_file s') = f_header (af_file s) -> f_palette (af_file s') = f_palette (af_file s) ->
  af_layers s' = af_layers s -> af_images s' = af_images s ->
  nth_error (af_frames s) k = Some sf -> nth_error (af_frames s') k' = Some sf' -> sf_cels sf' = sf_cels sf ->
  (forall target sel, render_frame c inflate s' (Z.of_nat k') target sel = render_frame c inflate s (Z.of_nat k) target sel) /\
  (forall target, combined_frame_image c inflate hasher s' (Z.of_nat k') target = combined_frame_image c inflate hasher s (Z.of_nat k) target).
Proof.
  intros Eh Ep El Ei Hk Hk' Ec.
  pose (s1 := {| af_file := af_file s; af_layers := af_layers s; af_frames := af_frames s'; af_tags := af_tags s; af_images := af_images s |}).
  assert (G1 : forall E, @get_index E _ (af_frames s) (Z.of_nat k) = Ok sf) by (intro; apply get_index_ok; [lia|now rewrite Nat2Z.id]).
  assert (G2 : forall E, @get_index E _ (af_frames s') (Z.of_nat k') = Ok sf') by (intro; apply get_index_ok; [lia|now rewrite Nat2Z.id]).
  assert (R : forall target sel, render_frame c inflate s' (Z.of_nat k') target sel = render_frame c inflate s (Z.of_nat k) target sel).
  { intros target sel. transitivity (render_frame c inflate s1 (Z.of_nat k') target sel).
    - refine (proj1 (render_same c inflate s' s1 _ _ _ _ _) _ _ _).
      + unfold RenderSpec.canvas_width. cbn. now rewrite Eh.
      + unfold RenderSpec.canvas_height. cbn. now rewrite Eh.
      + symmetry. exact El.
      + reflexivity.
      + intros j t. unfold load_image, decode_image. cbn [s1 af_file af_images]. now rewrite Ei, Eh, Ep.
    - unfold render_frame. cbn [s1 af_file af_frames]. destruct (usizec c _); cbn [bind]; try reflexivity.
      destruct (usizec c _); cbn [bind]; try reflexivity. destruct (_ <? _); [reflexivity|]. rewrite G1, G2. cbn [bind].
      rewrite Ec. reflexivity. }
  split; [exact R|]. intros target. unfold combined_frame_image. rewrite R. destruct (render_frame _ _ _ _ _ _); cbn [bind]; try reflexivity.
  rewrite G1, G2. cbn [bind]. now rewrite Ec.
Qed.

Lemma held_frame c i s k sf es d : cfg_ok c -> is_bytes i -> load c i = Ok s -> nth_error (af_frames s) k = Some sf ->
  links s sf es -> u16 d -> u32 (zlen (hold d es)) -> addressable c (i ++ hold d es) ->
  exists s', load c (i ++ hold d es) = Ok s' /\ same_outline s s' /\ af_images s' = af_images s /\
    af_frames s' = af_frames s ++ [with_duration sf d] /\
    forall inflate hasher,
      (forall target sel, render_frame c inflate s' (zlen (af_frames s)) target sel = render_frame c inflate s (Z.of_nat k) target sel) /\
      (forall target, combined_frame_image c inflate hasher s' (zlen (af_frames s)) target =
                      combined_frame_image c inflate hasher s (Z.of_nat k) target).
Proof.
  intros Hc Hi Hl Hk He Hd Hu Ha. destruct (held c i s k sf es d Hc Hi Hl Hk He Hd Hu Ha) as (s' & L & O & I & F).
  exists s'. repeat (split; [assumption|]). intros inflate hasher.
  assert (Hk' : nth_error (af_frames s') (length (af_frames s)) = Some (with_duration sf d)) by (rewrite F, nth_error_app2, Nat.sub_diag by lia; reflexivity).
  destruct O as (O1 & O2 & _ & _ & _ & _ & O3 & _).
  exact (frames_only c inflate hasher s s' k (length (af_frames s)) sf _ O1 O2 O3 I Hk Hk' eq_refl).
Qed.

Lemma links_exist c i s k sf : cfg_ok c -> is_bytes i -> addressable c i -> load c i = Ok s -> nth_error (af_frames s) k = Some sf ->
  zlen (af_frames s) <= 65536 -> exists es, links s sf es /\ zlen (concat es) = 24 * zlen (sf_cels sf).
Proof.
  intros Hc Hi Ha Hl Hk Hn. destruct (loaded_frame c i s Hl k sf Hk) as (fr & Hfr & _ & _ & HF).
  assert (Hlen : length (f_frames (af_file s)) = length (af_frames s)).
  { destruct (build_sprite_ok _ _ (loaded_build c i s Hl)) as (_ & _ & _ & _ & H). apply Forall2_length in H. now rewrite numbered_length in H. }
  unfold links. clear Hfr. induction HF as [|x fc l l' Hx H IH].
  - exists []. split; [constructor|reflexivity].
  - destruct IH as (es & E1 & E2). destruct Hx as (O1 & O2 & O3 & p & im & O4 & O5 & O6).
    destruct (image_cels_in s _ im (nth_error_In _ _ O5)) as (k' & fr' & x' & E & Hfr' & _). injection E as Ep _.
    assert (k' < length (f_frames (af_file s)))%nat by (apply nth_error_Some; congruence).
    exists (link fc p :: es). split.
    + constructor; [|exact E1]. exists p. split; [unfold u16, uint, zlen in *; lia|]. split; [|reflexivity].
      exists im. now rewrite O2.
    + cbn [concat]. rewrite zlen_app, E2, link_length. unfold zlen. cbn [length]. lia.
Qed.
