(** A part of the canvas (C135). *)
From Verif.Model Require Import Loader.
From Verif.Spec Require Import Bytes Format Encode FileSpec LoaderSpec ImageSpec RenderSpec Refusals Made Cropped.
From Verif.Proofs Require Import ParseLib FileFacts PaletteFacts FileProps FileFinal LoaderFacts LoaderProps RenderFacts RenderProps MadeProps EncodeFacts EncodeProps WriterFinal.

(** ** Files *)
Section File.
Context (dx dy w h : Z).
Notation g := (cropped_cel dx dy).
Notation gc := (cropped_chunk dx dy).

Lemma crop_suffixes cs : suffixes (map gc cs) = map (fun '(x, r) => (gc x, map gc r)) (suffixes cs).
Proof. induction cs as [|x cs IH]; [reflexivity|]. cbn [map suffixes]. now rewrite IH. Qed.
Lemma crop_followers cs : followers (map gc cs) = followers cs.
Proof. induction cs as [|x cs IH]; [reflexivity|]. destruct x; try reflexivity. cbn [map cropped_chunk followers]. now rewrite IH. Qed.
Lemma crop_own cs : own (map gc cs) = own cs.
Proof. unfold own. now rewrite crop_followers. Qed.
Lemma crop_flat {B} (f : chunk -> list chunk -> list B) cs : (forall x r, f (gc x) (map gc r) = f x r) ->
  flat_map (fun '(x, r) => f x r) (suffixes (map gc cs)) = flat_map (fun '(x, r) => f x r) (suffixes cs).
Proof.
  intro H. rewrite crop_suffixes. induction (suffixes cs) as [|[x r] l IH]; [reflexivity|]. cbn [map flat_map]. now rewrite IH, H.
Qed.
Lemma crop_plain {B} (f : chunk -> list B) cs : (forall x, f (gc x) = f x) -> flat_map f (map gc cs) = flat_map f cs.
Proof. intro H. induction cs as [|x cs IH]; [reflexivity|]. cbn [map flat_map]. now rewrite IH, H. Qed.
Lemma crop_layers cs : spec_layers (map gc cs) = spec_layers cs.
Proof.
  apply (crop_flat (fun x r => match x with ChLayer l => [layer_with l (own r)] | _ => [] end)).
  intros [] r; try reflexivity. cbn [cropped_chunk]. now rewrite crop_own.
Qed.
Lemma crop_slices cs : spec_slices (map gc cs) = spec_slices cs.
Proof.
  apply (crop_flat (fun x r => match x with ChSlice l => [slice_with l (own r)] | _ => [] end)).
  intros [] r; try reflexivity. cbn [cropped_chunk]. now rewrite crop_own.
Qed.
Lemma crop_tags cs : spec_tags (map gc cs) = spec_tags cs.
Proof.
  apply (crop_flat (fun x r => match x with ChTags t => give (tc_tags t) (followers r) | _ => [] end)).
  intros [] r; try reflexivity. cbn [cropped_chunk]. now rewrite crop_followers.
Qed.
Lemma crop_data cs : spec_sprite_data (map gc cs) = spec_sprite_data cs.
Proof.
  unfold spec_sprite_data. f_equal. apply (crop_flat (fun x r => if is_palette_chunk x then firstn 1 (followers r) else [])).
  intros [] r; try reflexivity; cbn [cropped_chunk is_palette_chunk]; now rewrite crop_followers.
Qed.
Lemma crop_cels cs : spec_cels (map gc cs) = map g (spec_cels cs).
Proof.
  unfold spec_cels. rewrite crop_suffixes. induction (suffixes cs) as [|[x r] l IH]; [reflexivity|].
  cbn [map flat_map]. rewrite map_app, <- IH. f_equal. destruct x; try reflexivity. cbn [cropped_chunk]. now rewrite crop_own.
Qed.
Lemma crop_slots n cs : slots n (map g cs) = map (option_map g) (slots n cs).
Proof.
  unfold slots. rewrite map_map. apply map_ext. intro k. unfold cel_at. rewrite <- map_rev.
  induction (rev cs) as [|x l IH]; [reflexivity|]. cbn [map find]. change (cc_layer_index (g x)) with (cc_layer_index x).
  destruct (_ =? _); [reflexivity|exact IH].
Qed.
Definition crop_frame (fr : frame) : frame := {| fr_duration := fr_duration fr; fr_cels := map (option_map g) (fr_cels fr) |}.

Notation cf := (cropped_file dx dy w h).
Lemma crop_all_layers raw : spec_all_layers (cf raw) = spec_all_layers raw.
Proof.
  unfold spec_all_layers. cbn [cropped_file rw_frames]. rewrite flat_map_map. apply flat_map_ext. intro fr. apply crop_layers.
Qed.
Lemma crop_palette raw : palette_of (cf raw) = palette_of raw.
Proof.
  assert (G : forall B (f : chunk -> list B), (forall x, f (gc x) = f x) ->
    flat_map f (all_chunks (rw_frames (cf raw))) = flat_map f (all_chunks (rw_frames raw))).
  { intros B f Hf. unfold all_chunks. cbn [cropped_file rw_frames]. rewrite flat_map_map, !flat_map_flat_map. apply flat_map_ext. intro fr.
    now apply crop_plain. }
  unfold palette_of, spec_palette, spec_writes, new_palettes, palettes_0004, palettes_0011.
  rewrite !G; [reflexivity|..]; intros []; reflexivity.
Qed.
Lemma crop_find raw n : find (bad_cel n) (frame_cels raw) = None -> find (bad_cel n) (frame_cels (cf raw)) = None.
Proof.
  unfold frame_cels. cbn [cropped_file rw_frames]. rewrite flat_map_map. cbn [rf_chunks].
  intro H. destruct (find _ (flat_map (fun fr => spec_cels (map gc (rf_chunks fr))) (rw_frames raw))) as [y|] eqn:E; [|reflexivity]. exfalso.
  apply find_some in E as [Hin E]. apply in_flat_map in Hin as (fr & Hfr & Hin). rewrite crop_cels in Hin. apply in_map_iff in Hin as (x & <- & Hx).
  pose proof (find_none _ _ H x ltac:(apply in_flat_map; eauto)) as K. unfold bad_cel in *. cbn [cropped_cel cc_layer_index] in E. congruence.
Qed.
Lemma crop_file raw pal : file_of (cf raw) pal =
  {| f_header := rw_header (cf raw); f_palette := pal; f_layers := f_layers (file_of raw pal);
     f_frames := map crop_frame (f_frames (file_of raw pal)); f_tags := f_tags (file_of raw pal);
     f_slices := f_slices (file_of raw pal); f_user_data := f_user_data (file_of raw pal) |}.
Proof.
  unfold file_of. cbn [f_layers f_frames f_tags f_slices f_user_data]. unfold layer_count. rewrite crop_all_layers. f_equal.
  - cbn [cropped_file rw_frames]. rewrite !map_map. apply map_ext. intro fr. unfold crop_frame. cbn [rf_chunks rf_duration fr_duration fr_cels].
    now rewrite crop_cels, crop_slots.
  - cbn [cropped_file rw_frames]. rewrite flat_map_map. apply flat_map_ext. intro fr. apply crop_tags.
  - cbn [cropped_file rw_frames]. rewrite flat_map_map. apply flat_map_ext. intro fr. apply crop_slices.
  - cbn [cropped_file rw_frames]. destruct (rw_frames raw) as [|fr l]; [reflexivity|]. cbn [map rf_chunks]. apply crop_data.
Qed.

Lemma crop_somes l : somes (map (option_map g) l) = map g (somes l).
Proof. induction l as [|[x|] l IH]; [reflexivity| |exact IH]. cbn [map option_map somes]. now rewrite IH. Qed.
Lemma crop_collect fs : forall k st,
  fold_left collect_frame (numbered k (map crop_frame fs)) st = fold_left collect_frame (numbered k fs) st.
Proof.
  assert (C : forall n l st, fold_left (collect_cel n) (map g l) st = fold_left (collect_cel n) l st).
  { intros n l. induction l as [|x l IH]; intro st; [reflexivity|]. cbn [map fold_left]. apply IH. }
  induction fs as [|fr fs IH]; intros k st; [reflexivity|]. cbn [map numbered fold_left]. unfold collect_frame at 2 4. cbn [fst snd crop_frame fr_cels].
  rewrite crop_somes, C. apply IH.
Qed.
Lemma crop_built v m fs : forall k r, map_out (build_frame v m) (numbered k fs) = Ok r ->
  map_out (build_frame v m) (numbered k (map crop_frame fs)) = Ok (map (shifted_frame dx dy) r).
Proof.
  assert (C : forall n l r, map_out (build_cel v m n) l = Ok r -> map_out (build_cel v m n) (map g l) = Ok (map (shifted_cel dx dy) r)).
  { intros n. induction l as [|x l IH]; intros r E; cbn [map_out map] in *; [injection E as <-; reflexivity|].
    unfold build_cel at 1. unfold build_cel at 1 in E. change (cel_image_index m n (g x)) with (cel_image_index m n x).
    destruct (cel_image_index m n x) as [j| |]; cbn [bind] in *; try discriminate. destruct (get_index v j) as [im| |]; cbn [bind] in *; try discriminate.
    destruct (map_out _ l) as [bs| |]; cbn [bind] in *; try discriminate. injection E as <-. rewrite (IH bs eq_refl). reflexivity. }
  induction fs as [|fr fs IH]; intros k r E; cbn [map numbered map_out] in *; [injection E as <-; reflexivity|].
  unfold build_frame at 1. unfold build_frame at 1 in E. cbn [fst snd crop_frame fr_cels fr_duration] in *. rewrite crop_somes.
  destruct (map_out (build_cel v m k) (somes (fr_cels fr))) as [cels| |] eqn:Ec; cbn [bind] in E; try discriminate.
  rewrite (C _ _ _ Ec). cbn [bind].
  destruct (map_out (build_frame v m) (numbered (k + 1) fs)) as [bs| |] eqn:Eb; cbn [bind] in E; try discriminate. injection E as <-.
  rewrite (IH _ _ Eb). reflexivity.
Qed.

Lemma crop_chunk_size x : zlen (enc_chunk (gc x)) = zlen (enc_chunk x).
Proof.
  now destruct x.
Qed.
Lemma crop_chunks_size cs : zlen (flat_map enc_chunk (map gc cs)) = zlen (flat_map enc_chunk cs).
Proof. induction cs as [|x cs IH]; [reflexivity|]. cbn [map flat_map]. now rewrite !zlen_app, crop_chunk_size, IH. Qed.
Lemma crop_frame_size fr : zlen (enc_raw_frame {| rf_duration := rf_duration fr; rf_chunks := map gc (rf_chunks fr) |}) = zlen (enc_raw_frame fr).
Proof.
  unfold enc_raw_frame. cbn [rf_chunks rf_duration]. rewrite !zlen_app, crop_chunks_size. unfold zlen. rewrite ?length_le, ?map_length. reflexivity.
Qed.
Lemma crop_size raw : zlen (enc_file (cf raw)) = zlen (enc_file raw).
Proof.
  assert (G : forall l, zlen (flat_map enc_raw_frame (map (fun fr => {| rf_duration := rf_duration fr; rf_chunks := map gc (rf_chunks fr) |}) l)) = zlen (flat_map enc_raw_frame l)).
  { induction l as [|fr l IH]; [reflexivity|]. cbn [map flat_map]. now rewrite !zlen_app, crop_frame_size, IH. }
  unfold enc_file. rewrite !zlen_app. cbn [cropped_file rw_frames]. rewrite G. reflexivity.
Qed.
Lemma crop_wf raw : wf_file raw -> can_crop dx dy w h raw -> wf_file (cf raw).
Proof.
  intros (A & B & C) (Hw & Hh & HX). split; [|split].
  - unfold wf_header in *. cbn [cropped_file rw_header h_file_size h_frames h_width h_height h_color_depth h_flags h_speed h_transparent_index
      h_color_count h_pixel_width h_pixel_height h_grid_x h_grid_y h_grid_width h_grid_height]. tauto.
  - cbn [cropped_file rw_frames]. destruct (rw_frames raw); [contradiction|discriminate].
  - cbn [cropped_file rw_frames]. apply Forall_map. rewrite Forall_forall in C |- *. intros fr Hfr. destruct (C fr Hfr) as (D1 & D2 & D3).
    split; [exact D1|]. split; [|now rewrite crop_frame_size]. cbn [rf_chunks]. apply Forall_map. rewrite Forall_forall in D2 |- *. intros x Hx.
    destruct (D2 x Hx) as [W1 W2]. split; [|now rewrite crop_chunk_size]. destruct x as [| | |x| | | | | | | | | | |]; try exact W1.
    destruct (HX fr x Hfr Hx) as [X1 X2]. destruct W1 as (Q1 & Q2 & Q3 & Q). exact (conj Q1 (conj X1 (conj X2 Q))).
Qed.

Lemma crop_loads c i raw s : cfg_ok c -> is_bytes i -> addressable c i -> parse_raw_file c i = Ok raw -> no_map_error raw ->
  load c i = Ok s -> can_crop dx dy w h raw ->
  zlen (enc_file (cf raw)) = zlen (enc_file raw) /\
  (addressable c (enc_file raw) -> exists s', load c (enc_file (cf raw)) = Ok s' /\ cropped dx dy w h s s').
Proof.
  intros Hc Hi Ha Hr Hn Hl HX. split; [apply crop_size|]. intro Haw.
  destruct (proj2 (parser_range c raw Hc) (conj Hn (ex_intro _ i (conj Hi (conj Ha Hr))))) as [Hwf _].
  pose proof (crop_wf raw Hwf HX) as Hw'.
  assert (Hi' : is_bytes (enc_file (cf raw))) by apply (file_writes not_maps _ Hw').
  assert (Ha' : addressable c (enc_file (cf raw))) by (unfold addressable in *; now rewrite crop_size).
  assert (Hr' : parse_raw_file c (enc_file (cf raw)) = Ok (cf raw)) by now apply write_read.
  destruct (parse_file_ok c i _ Hc Hi Ha (loaded_parse c i s Hl)) as (raw0 & pal & _ & Hr0 & HP & HF & HC). assert (raw0 = raw) as -> by congruence.
  pose proof (loaded_build c i s Hl) as Hb. pose proof Hl as Hl0.
  assert (Hp' : parse_file c (enc_file (cf raw)) = Ok (file_of (cf raw) pal)).
  { rewrite parse_file_eq by assumption. rewrite Hr'. cbn [bind]. unfold spec_outcome. rewrite crop_palette, HP.
    unfold layer_count. rewrite crop_all_layers. rewrite crop_find; [reflexivity|].
    destruct (find _ (frame_cels raw)) as [x|] eqn:E; [|reflexivity]. exfalso. apply find_some in E as [Hin E].
    rewrite Forall_forall in HC. specialize (HC x Hin). unfold bad_cel, layer_count in *. lia. }
  unfold load. rewrite Hp'. cbn [map_err bind]. unfold build_sprite in *. rewrite crop_file. cbn [f_frames f_layers f_tags]. rewrite <- HF.
  unfold collect_images in *. rewrite !numbered_enumerate in *. rewrite crop_collect.
  destruct (fold_left collect_frame (numbered 0 (f_frames (af_file s))) ([], [])) as [v m].
  destruct (map_out (build_frame v m) (numbered 0 (f_frames (af_file s)))) as [frs| |] eqn:Ef; cbn [bind] in Hb; try discriminate.
  rewrite (crop_built v m _ _ _ Ef). cbn [bind]. eexists. split; [reflexivity|].
  assert (Es : s = {| af_file := af_file s; af_layers := build_layers (f_layers (af_file s)); af_frames := frs; af_tags := map build_tag (f_tags (af_file s)); af_images := v |}) by congruence.
  rewrite Es. unfold cropped, api_size, api_layers, api_frames, api_tags, api_slices. cbn [af_file af_layers af_frames af_tags af_images f_header f_palette f_slices f_user_data cropped_file rw_header h_width h_height h_color_depth].
  rewrite HF. cbn [file_of f_header f_palette f_layers f_tags f_slices f_user_data]. repeat split.
Qed.
End File.

(** ** Frames *)
Section Frames.
Context (c : cfg) (inflate : inflater) (s s' : ase_file) (sel : layer_selection) (dx dy w h : Z).
Context (Hc : cfg_ok c) (Hinf : inflate_ok inflate) (Hty : typed c s) (Hty' : typed c s') (Hfit : made_fits c s) (Hfit' : made_fits c s').
Context (HX : cropped dx dy w h s s') (HI : inside dx dy w h s).

Lemma crop_drawn cel : drawn s' sel (shifted_cel dx dy cel) = drawn s sel cel.
Proof. destruct HX as (_ & _ & _ & L & _). unfold api_layers in L. unfold drawn. now rewrite L. Qed.
Lemma crop_view cel v : cel_view inflate s' (shifted_cel dx dy cel) v <-> cel_view inflate s cel v.
Proof. destruct HX as (_ & D & P & _ & I & _). unfold cel_view, decoded. now rewrite I, D, P. Qed.
Lemma crop_covers cel x y : covers (shifted_cel dx dy cel) x y = covers cel (x + dx) (y + dy).
Proof. unfold covers, shifted_cel. cbn [fc_origin fc_size]. destruct (fc_origin cel), (fc_size cel). cbn [fst snd]. lia. Qed.
Lemma crop_stacked x y cels back p : stacked c inflate s sel (x + dx) (y + dy) cels back p <->
  stacked c inflate s' sel x y (map (shifted_cel dx dy) cels) back p.
Proof.
  revert back. induction cels as [|cel cels IH]; intro back; cbn [map]; split; intro H.
  - inversion H; subst. constructor.
  - inversion H; subst. constructor.
  - inversion H as [|? ? ? ? Hskip H0|? ? ? l view front f mid ? Hdr Hcov Hv Hpx Hf Hm H0]; subst.
    + apply stacked_skip; [now rewrite crop_drawn, crop_covers|now apply IH].
    + eapply (stacked_draw _ _ _ _ _ _ (shifted_cel dx dy cel) _ back l view front f mid); try eassumption.
      * now rewrite crop_drawn.
      * now rewrite crop_covers.
      * now apply crop_view.
      * rewrite <- Hpx. unfold shifted_cel. cbn [fc_origin fc_size fst snd]. f_equal; lia.
      * now apply IH.
  - inversion H as [|? ? ? ? Hskip H0|? ? ? l view front f mid ? Hdr Hcov Hv Hpx Hf Hm H0]; subst.
    + rewrite crop_drawn, crop_covers in Hskip. apply stacked_skip; [exact Hskip|now apply IH].
    + rewrite crop_drawn in Hdr. rewrite crop_covers in Hcov. apply crop_view in Hv.
      eapply (stacked_draw _ _ _ _ _ _ cel _ back l view front f mid); try eassumption.
      * rewrite <- Hpx. unfold shifted_cel. cbn [fc_origin fc_size fst snd]. f_equal; lia.
      * now apply IH.
Qed.

Lemma crop_frames k t t' r : is_bytes t -> is_bytes t' -> canvas_size s' <= zlen t' -> part_of dx dy w h (canvas_width s) t t' ->
  render_frame c inflate s (Z.of_nat k) t sel = Ok r ->
  exists r', render_frame c inflate s' (Z.of_nat k) t' sel = Ok r' /\ part_of dx dy w h (canvas_width s) r r'.
Proof.
  intros Hb Hb' Hz HP Hok. pose proof HX as (Hs & _ & _ & _ & _ & HF & _). destruct HI as (I1 & I2 & I3 & I4).
  unfold api_size in Hs. fold (canvas_width s') (canvas_height s') in Hs. injection Hs as Ew Eh.
  destruct (nth_error (api_frames s) k) as [sf|] eqn:Hk.
  2: { destruct (made_other c s Hc Hty Hfit inflate Hinf sel k t Hb) as [HE HN].
       destruct (Z.ltb_spec (zlen t) (canvas_size s)).
       - rewrite (proj2 (HE TargetBufferTooSmall t)) in Hok by auto. discriminate.
       - rewrite HN in Hok by (assumption || lia). discriminate. }
  assert (Hk' : nth_error (api_frames s') k = Some (shifted_frame dx dy sf)) by (rewrite HF, nth_error_map, Hk; reflexivity).
  apply (made_exactly c s Hc Hty Hfit inflate Hinf sel k sf t r Hk Hb) in Hok. destruct Hok as (Hsz & _ & _ & Hcels & Hpx).
  assert (X : can_stack c inflate s' sel (sf_cels (shifted_frame dx dy sf)) t').
  { split.
    - cbn [shifted_frame sf_cels]. intros cel' l Hin Hd. apply in_map_iff in Hin as (cel & <- & Hin). rewrite crop_drawn in Hd.
      destruct (Hcels cel l Hin Hd) as [[v Hv] Hm]. split; [|exact Hm]. exists v. now apply crop_view.
    - rewrite Ew, Eh. intros x y back Hx Hy E. destruct (Hpx (x + dx) (y + dy) ltac:(lia) ltac:(lia)) as (b & p & B1 & _ & B3).
      rewrite (HP x y Hx Hy) in E. assert (b = back) as -> by congruence. exists p. now apply crop_stacked. }
  apply (stacks c s' Hc Hty' inflate Hinf Hfit' sel _ (frames_fine c s' Hty' Hfit' k _ Hk') t' Hb' Hz) in X. destruct X as [r' X].
  exists r'. assert (R : render_frame c inflate s' (Z.of_nat k) t' sel = Ok r').
  { rewrite (made_frame_eq c s' Hty' inflate Hfit' sel k _ t' Hk'). destruct (Z.ltb_spec (zlen t') (canvas_size s')); [lia|exact X]. }
  split; [exact R|]. apply (made_exactly c s' Hc Hty' Hfit' inflate Hinf sel k _ t' r' Hk' Hb') in R. destruct R as (_ & _ & _ & _ & R).
  rewrite Ew, Eh in R. intros x y Hx Hy. destruct (R x y Hx Hy) as (b' & p' & B1' & B2' & B3').
  destruct (Hpx (x + dx) (y + dy) ltac:(lia) ltac:(lia)) as (b & p & B1 & B2 & B3).
  rewrite (HP x y Hx Hy) in B1'. assert (b' = b) as -> by congruence. apply crop_stacked in B3. cbn [shifted_frame sf_cels] in B3'.
  rewrite (stacked_unique c s' inflate sel x y _ _ _ _ B3' B3) in B2'. congruence.
Qed.
End Frames.

Lemma crop_fits c s s' dx dy w h : typed c s' -> made_fits c s -> cropped dx dy w h s s' -> inside dx dy w h s -> made_fits c s'.
Proof.
  intros (W & H & _) (F1 & F2 & F3) (Es & _ & _ & _ & EI & EF & _) (I1 & I2 & I3 & I4).
  unfold api_size in Es. fold (canvas_width s') (canvas_height s') in Es. injection Es as Ew Eh. unfold api_frames in EF.
  split; [|split].
  - unfold canvas_size in *. rewrite Ew, Eh in *. eapply Z.le_lt_trans; [|exact F1]. clear - W H I1 I2 I3 I4. nia.
  - now rewrite EI.
  - rewrite EF. apply Forall_map. eapply Forall_impl; [|exact F3]. intros sf HS. cbn [shifted_frame sf_cels]. apply Forall_map.
    eapply Forall_impl; [|exact HS]. intros cel Hcel. exact Hcel.
Qed.
Lemma crops c inflate s s' sel dx dy w h : cfg_ok c -> inflate_ok inflate -> typed c s -> typed c s' -> made_fits c s ->
  cropped dx dy w h s s' -> inside dx dy w h s ->
  forall k t t' r, is_bytes t -> is_bytes t' -> canvas_size s' <= zlen t' -> part_of dx dy w h (canvas_width s) t t' ->
  render_frame c inflate s (Z.of_nat k) t sel = Ok r ->
  exists r', render_frame c inflate s' (Z.of_nat k) t' sel = Ok r' /\ part_of dx dy w h (canvas_width s) r r'.
Proof. intros Hc Hi Ht Ht' Hf HX HI. apply crop_frames; try assumption. eapply crop_fits; eassumption. Qed.
Lemma crop_all c i raw s dx dy w h : cfg_ok c -> is_bytes i -> addressable c i -> parse_raw_file c i = Ok raw -> no_map_error raw ->
  load c i = Ok s -> can_crop dx dy w h raw -> addressable c (enc_file raw) -> sprite_fits c s -> inside dx dy w h s ->
  exists s', load c (enc_file (cropped_file dx dy w h raw)) = Ok s' /\ cropped dx dy w h s s' /\
    forall inflate sel k t t' r, inflate_ok inflate -> is_bytes t -> is_bytes t' -> canvas_size s' <= zlen t' ->
      part_of dx dy w h (canvas_width s) t t' -> render_frame c inflate s (Z.of_nat k) t sel = Ok r ->
      exists r', render_frame c inflate s' (Z.of_nat k) t' sel = Ok r' /\ part_of dx dy w h (canvas_width s) r r'.
Proof.
  intros Hc Hi Ha Hr Hn Hl HX Haw HF HI.
  destruct (crop_loads dx dy w h c i raw s Hc Hi Ha Hr Hn Hl HX) as [Z0 L]. destruct (L Haw) as (s' & L1 & L2).
  exists s'. split; [exact L1|]. split; [exact L2|]. intros inflate sel k t t' r Hinf.
  destruct (proj2 (parser_range c raw Hc) (conj Hn (ex_intro _ i (conj Hi (conj Ha Hr))))) as [Hwf _].
  pose proof (crop_wf dx dy w h raw Hwf HX) as Hw'.
  assert (Hi' : is_bytes (enc_file (cropped_file dx dy w h raw))) by apply (file_writes not_maps _ Hw').
  destruct (loaded_typed c i s Hc Hi Ha Hl) as [T1 T2].
  destruct (loaded_typed c (enc_file (cropped_file dx dy w h raw)) s' Hc Hi') as [T1' _]; [|exact L1|].
  { unfold addressable in *. now rewrite Z0. }
  eapply crops; eauto.
Qed.
