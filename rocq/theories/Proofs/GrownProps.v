(** A frame with new layers and new pictures, written after a file (C127). *)
From Coq Require Import Sorted.
From Verif.Model Require Import Loader.
From Verif.Spec Require Import Bytes Utf8Spec Format FileSpec LoaderSpec RenderSpec Loads Patch Held Grown.
From Verif.Proofs Require Import ParseLib FileFacts FileProps LoaderFacts LoaderProps RenderFacts LoadsProps EditFacts EditProps FileFinal ConvertProps PatchProps PatchMore HeldProps RenderProps.

Definition lchunk (l : new_layer) : layer_chunk :=
  {| lc_flags := nl_flags l mod 128; lc_layer_type := LNormal; lc_child_level := 0; lc_blend_mode := blend_mode_code (nl_mode l);
     lc_opacity := nl_opacity l; lc_name := nl_name l; lc_tileset_index := None; lc_user_data := None |}.
Definition cchunk (x : new_cel) : cel_chunk :=
  {| cc_layer_index := nc_layer x; cc_x := nc_x x; cc_y := nc_y x; cc_opacity := 255; cc_z_index := 0;
     cc_content := CImage (nc_image x); cc_user_data := None |}.

Lemma layer_chunk_l err l : new_layer_ok l -> u32 (zlen (layer_bytes l)) -> chunk_l err (ChLayer (lchunk l)) (layer_bytes l).
Proof.
  intros (H1 & H2 & H3 & H4 & H5 & _) Hu. eexists. split; [exact Hu|]. split.
  2:{ unfold layer_bytes at 2. rewrite zlen_encode. cbn [chunk_code]. unfold layer_bytes, encode_chunk. do 2 f_equal. }
  cbn [payload_l]. eexists. exists []. split; [|now rewrite app_nil_r]. exists (nl_flags l), 0, 0, 0, (nl_mode l), [0; 0; 0], (le 2 (zlen (nl_name l)) ++ nl_name l), [].
  cbn [lchunk lc_flags lc_layer_type lc_child_level lc_blend_mode lc_opacity lc_name lc_tileset_index lc_user_data].
  assert (Z0 : u16 0) by (unfold u16, uint; lia).
  split; [exact H1|]. do 4 (split; [exact Z0|]). split; [exact H2|]. split; [exact H3|]. split; [reflexivity|].
  split; [split; [exact H4|]; split; [exact H5|reflexivity]|]. split; [constructor|]. do 3 (split; [reflexivity|]).
  split; [cbn; split; [tauto|discriminate]|]. split; [reflexivity|]. now rewrite app_nil_r.
Qed.
Lemma cel_chunk_l err x : new_cel_ok x -> u32 (zlen (cel_bytes x)) -> chunk_l err (ChCel (cchunk x)) (cel_bytes x).
Proof.
  intros (H1 & H2 & H3 & H4 & H5 & _) Hu. eexists. split; [exact Hu|]. split.
  2:{ unfold cel_bytes at 2. rewrite zlen_encode. cbn [chunk_code]. unfold cel_bytes, encode_chunk. do 2 f_equal. }
  cbn [payload_l]. exists (if im_compressed (nc_image x) then 2 else 0), (repeat 0 5), (le 2 (im_width (nc_image x)) ++ le 2 (im_height (nc_image x)) ++ im_data (nc_image x)).
  cbn [cchunk cc_layer_index cc_x cc_y cc_opacity cc_z_index cc_content cc_user_data].
  do 3 (split; [assumption|]). split; [unfold u8, uint; lia|]. split; [destruct (im_compressed _); unfold u16, uint; lia|].
  split; [unfold i16, sint; lia|]. split; [reflexivity|]. split; [|split; reflexivity].
  split; [destruct (im_compressed _); auto|]. do 2 (split; [assumption|]). reflexivity.
Qed.
Lemma is_bytes_layer l : new_layer_ok l -> is_bytes (layer_bytes l).
Proof.
  intros (_ & _ & _ & _ & _ & H). unfold layer_bytes, encode_chunk, is_bytes. rewrite !Forall_app. repeat split; try apply is_bytes_le; try exact H.
  repeat constructor; unfold is_byte; lia.
Qed.
Lemma is_bytes_cel x : new_cel_ok x -> is_bytes (cel_bytes x).
Proof.
  intros (_ & _ & _ & _ & _ & H). unfold cel_bytes, encode_chunk, is_bytes. rewrite !Forall_app. repeat split; try apply is_bytes_le; try exact H.
  repeat constructor; unfold is_byte; lia.
Qed.

(** ** More layers leave the cels of a frame alone *)
Lemma filled_slots n m cs : 0 <= n <= m -> Forall (fun x => cc_layer_index x < n) cs ->
  flat_map (fun o : option cel_chunk => match o with Some x => [x] | None => [] end) (slots m cs) =
  flat_map (fun o : option cel_chunk => match o with Some x => [x] | None => [] end) (slots n cs).
Proof.
  intros Hn Hc. unfold slots, zrange. replace (Z.to_nat m) with (Z.to_nat n + Z.to_nat (m - n))%nat by lia.
  rewrite seq_app, !map_app, flat_map_app. rewrite <- (app_nil_r (flat_map _ (map _ (map _ (seq 0 (Z.to_nat n)))))) at 2. f_equal.
  assert (H : forall k, In k (map Z.of_nat (seq (0 + Z.to_nat n) (Z.to_nat (m - n)))) -> cel_at k cs = None).
  { intros k Hk. apply in_map_iff in Hk as (j & <- & Hj). apply in_seq in Hj. unfold cel_at.
    destruct (find _ _) eqn:F; [|reflexivity]. apply find_some in F as [F1 F2]. apply in_rev in F1. rewrite Forall_forall in Hc. apply Hc in F1. lia. }
  induction (map Z.of_nat _) as [|k ks IH]; [reflexivity|]. cbn [map flat_map]. rewrite (H k (or_introl eq_refl)). apply IH. intros k' Hk'. apply H. now right.
Qed.
Lemma image_cels_filled fs fs' : map filled fs = map filled fs' -> image_cels fs = image_cels fs'.
Proof.
  intro H. unfold image_cels. f_equal. unfold file_cels. revert fs' H. generalize 0 as k. induction fs as [|f fs IH]; intros k [|f' fs'] H; try discriminate; [reflexivity|].
  cbn [map] in H. injection H as E H. cbn [numbered flat_map]. rewrite E. f_equal. now apply IH.
Qed.
Lemma sum_le (e : bytes) es : In e es -> zlen e <= zlen (concat es).
Proof.
  induction es as [|x es IH]; [contradiction|]. cbn [concat]. rewrite zlen_app. intros [->|H]; [pose proof (zlen_nonneg (concat es)); lia|].
  specialize (IH H). pose proof (zlen_nonneg x). lia.
Qed.

Lemma frames_carry fs fs' A : forall B gs k, map filled A = map filled B -> map fr_duration A = map fr_duration B ->
  (forall k y cc, shows fs k y cc -> shows fs' k y cc) ->
  Forall2 (fun '(k, fr) sf => sf_duration sf = fr_duration fr /\ sf_origin sf = (0, 0) /\ Forall2 (shows fs k) (filled fr) (sf_cels sf))
    (numbered k A) gs ->
  Forall2 (fun '(k, fr) sf => sf_duration sf = fr_duration fr /\ sf_origin sf = (0, 0) /\ Forall2 (shows fs' k) (filled fr) (sf_cels sf))
    (numbered k B) gs.
Proof.
  induction A as [|f A IH]; intros [|f' B] gs k E1 E2 Hsh H; try discriminate; cbn [numbered] in *.
  - inversion H. constructor.
  - cbn [map] in E1, E2. injection E1 as E1 E1'. injection E2 as E2 E2'. inversion H as [|x1 g x2 gs' HD HR]; subst. cbn beta iota in HD. destruct HD as (D1 & D2 & D3). constructor.
    + split; [congruence|]. split; [exact D2|]. rewrite <- E1. clear -D3 Hsh. induction D3; constructor; auto.
    + now apply IH.
Qed.
Lemma new_shown fs kk I xs : forall J, image_cels fs = I ++ J ++ map (fun x => ((kk, nc_layer x), nc_image x)) xs ->
  Forall2 (shows fs kk) (map cchunk xs) (map (fun '(j, x) => cel_seen j x) (numbered (zlen I + zlen J) xs)).
Proof.
  induction xs as [|x xs IH]; intros J E; cbn [map numbered]; constructor.
  - split; [reflexivity|]. split; [reflexivity|]. cbn [cel_seen fc_image_index]. pose proof (zlen_nonneg I). pose proof (zlen_nonneg J). split; [lia|].
    exists kk, (nc_image x). split; [reflexivity|]. split; [|reflexivity]. rewrite E. unfold zlen in *. cbn [map cchunk cc_layer_index].
    rewrite app_assoc, nth_error_app2 by (rewrite app_length; lia). replace (_ - _)%nat with 0%nat by (rewrite app_length; lia). reflexivity.
  - replace (zlen I + zlen J + 1) with (zlen I + zlen (J ++ [((kk, nc_layer x), nc_image x)])) by (rewrite zlen_app; unfold zlen; cbn; lia).
    apply IH. rewrite E. cbn [map]. now rewrite <- app_assoc.
Qed.

Section Grown_.
Context (c : cfg) (i : bytes) (s : ase_file) (d : Z) (ls : list new_layer) (xs : list new_cel).
Context (Hc : cfg_ok c) (Hi : is_bytes i) (Hl : load c i = Ok s) (Hd : u16 d).
Context (Hls : Forall new_layer_ok ls) (Hxs : Forall new_cel_ok xs) (Hasc : ascending (zlen (f_layers (af_file s)) + zlen ls) xs).
Context (Hu : u32 (zlen (hold d (additions ls xs)))) (Ha : addressable c (i ++ hold d (additions ls xs))).

Let lcs := map lchunk ls.
Let cs := map cchunk xs.
Let chunks := map ChLayer lcs ++ map ChCel cs.

Lemma new_layers_ : spec_layers chunks = lcs.
Proof.
  unfold chunks, spec_layers. subst lcs. assert (E : flat_map (fun '(x, rest) => match x with ChLayer l => [layer_with l (own rest)] | _ => [] end) (suffixes (map ChCel cs)) = []).
  { clear. induction cs as [|x l IH]; [reflexivity|exact IH]. }
  clear -E. induction ls as [|l l' IH]; [exact E|]. cbn [map app suffixes flat_map]. rewrite IH.
  assert (O : own (map ChLayer (map lchunk l') ++ map ChCel cs) = None) by (destruct l'; [destruct cs; reflexivity|reflexivity]).
  rewrite O. reflexivity.
Qed.
Lemma new_cels_ : spec_cels chunks = cs.
Proof.
  unfold chunks, spec_cels. clear. induction lcs as [|l l' IH]; [|exact IH]. cbn [map app]. subst cs.
  induction xs as [|x xs' IH]; [reflexivity|]. cbn [map suffixes flat_map]. rewrite IH.
  assert (O : own (map ChCel (map cchunk xs')) = None) by (destruct xs'; reflexivity). rewrite O. reflexivity.
Qed.
Lemma new_none X (g : chunk -> list user_data_chunk -> list X) : (forall x us, g (ChLayer x) us = []) -> (forall x us, g (ChCel x) us = []) ->
  proj g chunks = [].
Proof.
  intros H1 H2. unfold chunks, proj. clear -H1 H2. induction lcs as [|l l' IH].
  - cbn [map app]. induction cs as [|x l IH]; [reflexivity|]. cbn [map suffixes flat_map]. now rewrite H2, IH.
  - cbn [map app suffixes flat_map]. now rewrite H1, IH.
Qed.

Lemma grown_load : exists s', load c (i ++ hold d (additions ls xs)) = Ok s' /\ grown s s' d ls xs.
Proof.
  set (es := additions ls xs) in *.
  assert (Ha1 : addressable c i).
  { revert Ha. unfold addressable. rewrite zlen_app. pose proof (zlen_nonneg (hold d es)). lia. }
  pose proof Hl as Hl'. apply (load_exactly c i s Hc Hi Ha1) in Hl' as (raw & Hraw & Hs).
  pose proof Hs as ((pal & Hp & Efile & Hall) & HL & HT & HI & HF).
  assert (Elen : zlen (hold d es) = zlen (concat es) + 16).
  { unfold hold. rewrite !zlen_app, !zlen_le. change (zlen [0; 0]) with 2. lia. }
  assert (HC : Forall2 (fun x e => chunk_l (kept_error c) x e) chunks es).
  { assert (Hle : forall e, In e es -> u32 (zlen e)).
    { intros e He. apply sum_le in He. unfold u32, uint in *. pose proof (zlen_nonneg e). lia. }
    unfold chunks, es, additions. apply Forall2_app.
    - assert (Hle' : forall l, In l ls -> u32 (zlen (layer_bytes l))).
      { intros l Hin. apply Hle. apply in_app_iff. left. now apply in_map. }
      subst lcs. clear -Hls Hle'. induction Hls as [|l l' H1 H2 IH]; [constructor|]. cbn [map]. constructor.
      + apply layer_chunk_l; [exact H1|]. apply Hle'. now left.
      + apply IH; [assumption|]. intros l0 Hin. apply Hle'. now right.
    - assert (Hle' : forall l, In l xs -> u32 (zlen (cel_bytes l))).
      { intros l Hin. apply Hle. apply in_app_iff. right. now apply in_map. }
      subst cs. clear -Hxs Hle'. induction Hxs as [|l l' H1 H2 IH]; [constructor|]. cbn [map]. constructor.
      + apply cel_chunk_l; [exact H1|]. apply Hle'. now left.
      + apply IH; [assumption|]. intros l0 Hin. apply Hle'. now right. }
  pose (nf := {| rf_duration := d; rf_chunks := chunks |}).
  pose (raw' := re_file raw (rw_frames raw ++ [nf])).
  assert (Hnf : frame_l (kept_error c) nf (hold d es)).
  { exists 0, (zlen es), [0; 0], (concat es), []. cbn [nf rf_duration rf_chunks].
    assert (Eles : zlen es = zlen chunks) by (unfold zlen; now rewrite (Forall2_length _ _ _ HC)).
    assert (Ub : zlen es <= zlen (concat es)).
    { assert (G : Forall (fun e => 1 <= zlen e) es).
      { unfold es, additions. apply Forall_app. split; apply Forall_map; apply Forall_forall; intros y _.
        - unfold layer_bytes. rewrite zlen_encode. pose proof (zlen_nonneg (le 2 (nl_flags y) ++ le 2 0 ++ le 2 0 ++ le 2 0 ++ le 2 0 ++ le 2 (nl_mode y) ++ le 1 (nl_opacity y) ++ [0; 0; 0] ++ le 2 (zlen (nl_name y)) ++ nl_name y)). lia.
        - unfold cel_bytes. rewrite zlen_encode. match goal with |- 1 <= zlen ?z + 6 => pose proof (zlen_nonneg z) end. lia. }
      clear -G. induction G as [|e es' H1 H2 IH]; [reflexivity|]. cbn [concat]. rewrite zlen_app. unfold zlen in *. cbn [length]. lia. }
    split; [exact Hu|]. split; [unfold u16, uint; lia|]. split; [exact Hd|]. split; [reflexivity|].
    split. { unfold u32, uint in *. pose proof (zlen_nonneg es). lia. }
    split. { rewrite <- Eles. destruct (Z.eqb_spec (zlen es) 0); [assumption|reflexivity]. }
    split. { exists es. split; [exact HC|reflexivity]. }
    rewrite app_nil_r, Elen. reflexivity. }
  assert (Hall' : forall X (h : raw_frame -> list X), flat_map h (rw_frames raw') = flat_map h (rw_frames raw) ++ h nf).
  { intros X h. unfold raw'. cbn [re_file rw_frames]. rewrite flat_map_app. cbn [flat_map]. now rewrite app_nil_r. }
  assert (El' : spec_all_layers raw' = spec_all_layers raw ++ lcs).
  { unfold spec_all_layers. rewrite Hall'. cbn [nf rf_chunks]. now rewrite new_layers_. }
  assert (Et' : flat_map (fun f => spec_tags (rf_chunks f)) (rw_frames raw') = flat_map (fun f => spec_tags (rf_chunks f)) (rw_frames raw)).
  { rewrite Hall'. change (spec_tags (rf_chunks nf)) with (proj g_tags chunks). rewrite new_none by reflexivity. apply app_nil_r. }
  assert (Es' : flat_map (fun f => spec_slices (rf_chunks f)) (rw_frames raw') = flat_map (fun f => spec_slices (rf_chunks f)) (rw_frames raw)).
  { rewrite Hall'. change (spec_slices (rf_chunks nf)) with (proj g_slice chunks). rewrite new_none by reflexivity. apply app_nil_r. }
  assert (Hne : rw_frames raw <> []) by now destruct Hraw as (? & ? & _ & ? & _).
  assert (Eu' : match rw_frames raw' with f :: _ => spec_sprite_data (rf_chunks f) | [] => None end =
                match rw_frames raw with f :: _ => spec_sprite_data (rf_chunks f) | [] => None end).
  { unfold raw'. cbn [re_file rw_frames]. destruct (rw_frames raw); [contradiction|reflexivity]. }
  assert (Hpl : forall X (g : chunk -> list X), (forall x, g (ChLayer x) = []) -> (forall x, g (ChCel x) = []) ->
    flat_map g (all_chunks (rw_frames raw')) = flat_map g (all_chunks (rw_frames raw))).
  { intros X g G1 G2. rewrite !flat_chunks, Hall', proj_plain. cbn [nf rf_chunks]. rewrite new_none; [apply app_nil_r|intros; apply G1|intros; apply G2]. }
  assert (Ep : palette_of raw' = palette_of raw).
  { unfold palette_of. change (rw_header raw') with (rw_header raw).
    assert (E : spec_palette (h_transparent_index (rw_header raw)) (rw_frames raw') = spec_palette (h_transparent_index (rw_header raw)) (rw_frames raw)).
    { unfold spec_palette, spec_writes, new_palettes, palettes_0004, palettes_0011. rewrite !Hpl by reflexivity. reflexivity. }
    now rewrite E. }
  assert (Efl : f_layers (af_file s) = spec_all_layers raw) by now rewrite Efile.
  pose (n := layer_count raw). assert (En : zlen (f_layers (af_file s)) = n) by (unfold n, layer_count; now rewrite Efl).
  assert (En' : layer_count raw' = n + zlen ls).
  { unfold layer_count. rewrite El', zlen_app. unfold n, layer_count. f_equal. subst lcs. unfold zlen. now rewrite map_length. }
  pose (m := fun (n : Z) (f : raw_frame) => {| fr_duration := rf_duration f; fr_cels := slots n (spec_cels (rf_chunks f)) |}).
  assert (Efs : f_frames (af_file s) = map (m n) (rw_frames raw)) by now rewrite Efile.
  assert (Efs' : f_frames (file_of raw' pal) = map (m (n + zlen ls)) (rw_frames raw) ++ [m (n + zlen ls) nf]).
  { unfold file_of. cbn [f_frames]. rewrite En'. unfold raw'. cbn [re_file rw_frames]. rewrite map_app. reflexivity. }
  assert (Hsame : map filled (map (m (n + zlen ls)) (rw_frames raw)) = map filled (map (m n) (rw_frames raw))).
  { rewrite !map_map. apply map_ext_in. intros f Hf. unfold filled, m. cbn [fr_cels]. apply filled_slots.
    - pose proof (zlen_nonneg ls). unfold n, layer_count. pose proof (zlen_nonneg (spec_all_layers raw)). lia.
    - apply Forall_forall. intros x Hx. rewrite Forall_forall in Hall. apply Hall. unfold frame_cels. apply in_flat_map. eauto. }
  destruct Hasc as [Hsort Hlt]. rewrite En in Hlt.
  assert (Elay : map cc_layer_index cs = map nc_layer xs).
  { subst cs. rewrite map_map. reflexivity. }
  assert (Hrange : Forall (fun x => In (cc_layer_index x) (zrange (n + zlen ls))) cs).
  { subst cs. apply Forall_map. apply Forall_forall. intros x Hx. apply zrange_in. cbn [cchunk cc_layer_index].
    rewrite Forall_forall in Hlt, Hxs. specialize (Hlt x Hx). destruct (Hxs x Hx) as (U & _). unfold u16, uint in U. lia. }
  assert (Efill : filled (m (n + zlen ls) nf) = cs).
  { unfold filled, m, nf. cbn [fr_cels rf_chunks]. rewrite new_cels_. unfold slots. apply slots_sorted; [apply zrange_sorted| |exact Hrange].
    now rewrite Elay. }
  set (fs := map (m n) (rw_frames raw)) in *. set (fs' := map (m (n + zlen ls)) (rw_frames raw) ++ [m (n + zlen ls) nf]) in *.
  pose (kk := zlen (rw_frames raw)).
  assert (Eim : image_cels fs' = image_cels fs ++ map (fun x => ((kk, nc_layer x), nc_image x)) xs).
  { transitivity (image_cels (fs ++ [m (n + zlen ls) nf])).
    - apply image_cels_filled. unfold fs', fs. rewrite !map_app. now rewrite Hsame.
    - unfold image_cels, file_cels. rewrite numbered_app, !flat_map_app. f_equal. cbn [numbered flat_map]. rewrite Efill, app_nil_r.
      assert (Ek : 0 + zlen fs = kk) by (unfold fs, kk, zlen; rewrite map_length; lia). rewrite Ek. clearbody kk. subst cs. clear.
      induction xs as [|x l IH]; [reflexivity|]. cbn [map flat_map cchunk cc_content cc_layer_index app]. now rewrite IH. }
  assert (Hsh : forall k y cc, shows fs k y cc -> shows fs' k y cc).
  { intros k y cc (A1 & A2 & A3 & p' & im' & A4 & A5 & A6). repeat split; auto. exists p', im'. rewrite Eim. repeat split; auto.
    rewrite nth_error_app1; [exact A5|]. apply nth_error_Some. congruence. }
  assert (Ezi : zlen (af_images s) = zlen (image_cels fs)) by (rewrite HI, Efs; unfold zlen; now rewrite map_length).
  exists {| af_file := file_of raw' pal; af_layers := af_layers s ++ map layer_view ls; af_tags := af_tags s; af_images := af_images s ++ map nc_image xs;
            af_frames := af_frames s ++ [{| sf_duration := d; sf_origin := (0, 0); sf_cels := map (fun '(j, x) => cel_seen j x) (numbered (zlen (af_images s)) xs) |}] |}.
  split.
  - apply load_exactly; [exact Hc| |exact Ha|].
    { apply Forall_app. split; [exact Hi|]. unfold hold. rewrite !Forall_app. repeat split; try apply is_bytes_le.
      - repeat constructor; unfold is_byte; lia.
      - apply Forall_concat. unfold es, additions. apply Forall_app. split; apply Forall_map.
        + eapply Forall_impl; [|exact Hls]. apply is_bytes_layer.
        + eapply Forall_impl; [|exact Hxs]. apply is_bytes_cel. }
    exists raw'. split.
    + destruct Hraw as (e1 & e2 & R1 & R2 & R3 & E). exists e1, (e2 ++ hold d es). split; [exact R1|].
      split; [unfold raw'; cbn [re_file rw_frames]; now destruct (rw_frames raw)|]. split; [|now rewrite E, app_assoc].
      apply seq_l_app; [exact R3|]. rewrite <- (app_nil_r (hold d es)). apply seq_l_cons; [exact Hnf|apply seq_l_nil].
    + unfold stands_for. cbn [af_file af_layers af_tags af_images af_frames]. split.
      { exists pal. rewrite Ep. do 2 (split; [auto|]). rewrite En'. unfold frame_cels. rewrite Hall'. apply Forall_app. split.
        - eapply Forall_impl; [|exact Hall]. cbn. intros x Hx. fold n in Hx. pose proof (zlen_nonneg ls). lia.
        - cbn [nf rf_chunks]. rewrite new_cels_. eapply Forall_impl; [|exact Hrange]. cbn. intros x Hx. apply zrange_in in Hx. apply Hx. }
      split. { rewrite HL, Efl. unfold file_of. cbn [f_layers]. rewrite El'. unfold layers_of. rewrite filter_app, map_app. f_equal.
        subst lcs. clear. induction ls as [|l l' IH]; [reflexivity|]. cbn [map filter lchunk lc_layer_type]. rewrite <- IH. f_equal.
        unfold layer_of, layer_view. cbn [lchunk lc_name lc_opacity lc_blend_mode lc_flags lc_layer_type]. now rewrite testbit_mod128. }
      split. { rewrite HT, Efile. unfold file_of. cbn [f_tags]. now rewrite Et'. }
      rewrite Efs'. fold fs'. split. { rewrite Eim, HI, Efs, map_app. f_equal. rewrite map_map. reflexivity. }
      unfold fs' at 2. rewrite numbered_app. apply Forall2_app.
      * rewrite Efs in HF. apply (frames_carry fs fs' fs); [now symmetry| |exact Hsh|exact HF]. unfold fs. now rewrite !map_map.
      * cbn [numbered]. constructor; [|constructor]. split; [reflexivity|]. split; [reflexivity|]. rewrite Efill. cbn [sf_cels].
        rewrite Ezi. replace (zlen (image_cels fs)) with (zlen (image_cels fs) + zlen (@nil ((Z * Z) * image))) by (unfold zlen; cbn; lia).
        replace (0 + zlen (map (m (n + zlen ls)) (rw_frames raw))) with kk by (unfold kk, zlen; rewrite map_length; lia).
        apply new_shown. exact Eim.
  - unfold grown. cbn [af_file af_layers af_tags af_images af_frames]. rewrite Efile. unfold file_of.
    cbn [f_header f_palette f_layers f_tags f_slices f_user_data]. rewrite Et', Es', Eu'. repeat split; reflexivity.
Qed.
End Grown_.

Lemma old_cels c i s k sf fc : cfg_ok c -> is_bytes i -> addressable c i -> load c i = Ok s ->
  nth_error (af_frames s) k = Some sf -> In fc (sf_cels sf) ->
  0 <= fc_layer_index fc < zlen (f_layers (af_file s)) /\ 0 <= fc_image_index fc < zlen (af_images s).
Proof.
  intros Hc Hi Ha Hl Hk Hin. pose proof Hl as Hl'. apply (load_exactly c i s Hc Hi Ha) in Hl' as (raw & _ & ((pal & _ & Efile & _) & _)).
  destruct (loaded_frame c i s Hl k sf Hk) as (fr & Hfr & _ & _ & HF).
  pose proof (parsed_wf c i _ Hc Hi Ha (loaded_parse c i s Hl)) as Hwf. rewrite Forall_forall in Hwf.
  pose proof (Hwf fr (nth_error_In _ _ Hfr)) as Hw. apply In_nth_error in Hin as [m Hm].
  destruct (Forall2_nth_r _ _ _ _ _ HF Hm) as (x & Hx & _ & O2 & O3 & p & im & _ & O5 & _). split.
  - rewrite O2. apply nth_error_In, filled_in in Hx as (j & Hj). rewrite (Hw j x Hj).
    assert (Hlt : (j < length (fr_cels fr))%nat) by (apply nth_error_Some; congruence).
    rewrite Efile in Hfr. unfold file_of in Hfr. cbn [f_frames] in Hfr. rewrite nth_error_map in Hfr.
    destruct (nth_error (rw_frames raw) k); [|discriminate]. injection Hfr as <-. cbn [fr_cels] in Hlt.
    unfold slots in Hlt. rewrite map_length, zrange_length in Hlt. rewrite Efile. unfold file_of. cbn [f_layers]. unfold layer_count in Hlt. lia.
  - rewrite (loaded_images c i s Hl). split; [exact O3|]. unfold zlen. rewrite map_length.
    assert (Z.to_nat (fc_image_index fc) < length (image_cels (f_frames (af_file s))))%nat by (apply nth_error_Some; congruence). lia.
Qed.

Lemma grown_others c i s s' d ls xs : cfg_ok c -> is_bytes i -> addressable c i -> load c i = Ok s -> grown s s' d ls xs ->
  ls = [] \/ zlen (af_layers s) = zlen (f_layers (af_file s)) ->
  forall inflate,
    (forall j target, 0 <= j < zlen (af_images s) -> load_image c inflate s' j target = load_image c inflate s j target) /\
    forall k, 0 <= k < zlen (af_frames s) ->
      (forall target sel, render_frame c inflate s' k target sel = render_frame c inflate s k target sel) /\
      (forall hasher target, combined_frame_image c inflate hasher s' k target = combined_frame_image c inflate hasher s k target).
Proof.
  intros Hc Hi Ha Hl (G1 & G2 & _ & _ & _ & _ & G3 & G4 & G5) Hno inflate.
  assert (I : forall j target, 0 <= j < zlen (af_images s) -> load_image c inflate s' j target = load_image c inflate s j target).
  { intros j t Hj. apply load_image_same; [lia| |congruence|congruence]. rewrite G4, nth_error_app1; [reflexivity|]. unfold zlen in Hj. lia. }
  split; [exact I|]. intros k Hk.
  destruct (nth_error (af_frames s) (Z.to_nat k)) as [sf|] eqn:D; [|apply nth_error_None in D; unfold zlen in Hk; lia].
  assert (D' : nth_error (af_frames s') (Z.to_nat k) = Some sf).
  { rewrite G5, nth_error_app1; [exact D|]. apply nth_error_Some. congruence. }
  assert (R : forall target sel, render_frame c inflate s' k target sel = render_frame c inflate s k target sel).
  { intros t sel. unfold render_frame. rewrite G1. destruct (usizec c _); cbn [bind]; try reflexivity.
    destruct (usizec c _); cbn [bind]; try reflexivity. destruct (_ <? _); [reflexivity|].
    rewrite (get_index_ok _ k sf ltac:(lia) D), (get_index_ok _ k sf ltac:(lia) D'). cbn [bind].
    apply fold_out_ext. intros buf fc Hin. destruct (old_cels c i s _ sf fc Hc Hi Ha Hl D Hin) as [B1 B2].
    unfold render_cel. assert (EL : nth_error (af_layers s') (Z.to_nat (fc_layer_index fc)) = nth_error (af_layers s) (Z.to_nat (fc_layer_index fc))).
    { rewrite G3. destruct Hno as [->|E]; [now rewrite app_nil_r|]. rewrite <- E in B1. apply nth_error_app1. unfold zlen in B1. lia. }
    rewrite EL. destruct (nth_error (af_layers s) (Z.to_nat (fc_layer_index fc))) as [l|]; [|reflexivity]. destruct (_ || _)%bool; [reflexivity|]. rewrite G1.
    destruct (usizec c _); cbn [bind]; try reflexivity. destruct (usizec c _); cbn [bind]; try reflexivity.
    destruct (vec_zeroed c _); cbn [bind]; try reflexivity. now rewrite I. }
  split; [exact R|]. intros hasher t. unfold combined_frame_image. rewrite R. destruct (render_frame _ _ _ _ _ _); cbn [bind]; try reflexivity.
  now rewrite (get_index_ok _ k sf ltac:(lia) D), (get_index_ok _ k sf ltac:(lia) D').
Qed.
