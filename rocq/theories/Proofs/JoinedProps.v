(** One animation after another (C133). *)
From Verif.Model Require Import Loader.
From Verif.Spec Require Import Bytes Format Encode FileSpec LoaderSpec ImageSpec RenderSpec Published Edits Taken Joined.
From Verif.Proofs Require Import ParseLib FileFacts FileProps FileFinal LoaderFacts LoaderProps RenderFacts RenderProps EncodeFacts EncodeProps WriterFinal PublishedProps EditFacts EditProps TakenProps BackwardsProps.

(** ** Frames of any sprite *)
Lemma pictured_loads c i' f' : parse_file c i' = Ok f' -> Forall wf_frame (f_frames f') ->
  (forall j fr' y, nth_error (f_frames f') j = Some fr' -> In y (filled fr') -> exists im, picture (f_frames f') y im) ->
  exists s', load c i' = Ok s'.
Proof.
  intros Hp W H. pose proof (build_sprite_outcome f') as HO. replace (problems (f_frames f')) with (@nil load_sprite_error) in HO.
  { destruct HO as [s' Hs']. exists s'. unfold load. rewrite Hp. exact Hs'. }
  symmetry. unfold problems. rewrite flat_map_nil. intros [k y] Hy. apply file_cels_in in Hy as (H0 & fr' & Hfr' & Hy).
  destruct (H _ _ _ Hfr' Hy) as [im Hi]. unfold cel_problem. destruct Hi as [->|(p & P0 & -> & P)]; [reflexivity|].
  replace (existsb _ (image_cels (f_frames f'))) with true; [reflexivity|]. symmetry.
  apply (existsb_key (image_cels (f_frames f')) (p, cc_layer_index y)). exists im. apply image_cels_at; [exact W|].
  split; [exact P0|]. split; [|exact P]. apply filled_in in Hy as [n Hn].
  rewrite Forall_forall in W. rewrite (W fr' (nth_error_In _ _ Hfr') n y Hn). lia.
Qed.

Lemma frame_from c i i' s s' k j fr fr' : cfg_ok c -> is_bytes i -> addressable c i -> is_bytes i' -> addressable c i' ->
  load c i = Ok s -> load c i' = Ok s' -> same_canvas s s' -> f_palette (af_file s) = f_palette (af_file s') -> af_layers s = af_layers s' ->
  nth_error (f_frames (af_file s)) k = Some fr -> nth_error (f_frames (af_file s')) j = Some fr' ->
  Forall2 (alike (f_frames (af_file s)) (f_frames (af_file s'))) (filled fr) (filled fr') ->
  forall inflate target sel, render_frame c inflate s' (Z.of_nat j) target sel = render_frame c inflate s (Z.of_nat k) target sel.
Proof.
  intros Hc Hi Ha Hi' Ha' Hl Hl' Hcan Hpal EL Hfr Hfr' HS inflate target sel.
  pose proof (parsed_wf c i _ Hc Hi Ha (loaded_parse c i s Hl)) as W. pose proof (parsed_wf c i' _ Hc Hi' Ha' (loaded_parse c i' s' Hl')) as W'.
  pose proof (build_sprite_ok _ _ (loaded_build c i s Hl)) as (_ & _ & _ & I & _).
  pose proof (build_sprite_ok _ _ (loaded_build c i' s' Hl')) as (_ & _ & _ & I' & _).
  destruct (loaded_frame' c i s Hl k fr Hfr) as (sf & Hk & _ & _ & S1).
  destruct (loaded_frame' c i' s' Hl' j fr' Hfr') as (sf' & Hj & _ & _ & S2).
  symmetry. eapply (same_picture c i s i' s'); try eassumption.
  assert (G : forall xs ys, (forall x, In x xs -> In x (filled fr)) -> (forall y, In y ys -> In y (filled fr')) ->
    Forall2 (alike (f_frames (af_file s)) (f_frames (af_file s'))) xs ys ->
    forall a b, Forall2 (shows (f_frames (af_file s)) (Z.of_nat k)) xs a -> Forall2 (shows (f_frames (af_file s')) (Z.of_nat j)) ys b ->
    shown s sel a = shown s' sel b).
  { induction 3 as [|x y xs ys Hxy Hxs IH]; intros a b Ha1 Hb1; inversion Ha1 as [|? fc ? ? Hfc Ha2]; inversion Hb1 as [|? fc' ? ? Hfc' Hb2]; subst; [reflexivity|].
    cbn [shown flat_map]. unfold shown in IH. rewrite (IH) with (a := l') (b := l'0); try assumption; [|intros; apply H; now right|intros; apply H0; now right].
    unfold shown. cbn [flat_map]. f_equal.
    destruct (shows_resolved _ k fr x fc W Hfr (H x (or_introl eq_refl)) Hfc) as (im & N1 & R1 & Z1).
    destruct (shows_resolved _ j fr' y fc' W' Hfr' (H0 y (or_introl eq_refl)) Hfc') as (im' & N2 & R2 & Z2).
    destruct Hxy as (E1 & E2 & E3 & im2 & P1 & P2). apply picture_resolved in P1, P2.
    assert (im = im2) as -> by congruence. assert (im' = im2) as -> by congruence.
    destruct Hfc as (O1 & Y1 & _). destruct Hfc' as (O2 & Y2 & _).
    rewrite (drawn_same s s' sel fc fc' EL) by congruence. destruct (drawn s' sel fc'); [|reflexivity].
    rewrite I, I', N1, N2, Z1, Z2, O1, O2, E2, E3. reflexivity. }
  apply (G _ _ (fun x Hx => Hx) (fun x Hx => Hx) HS _ _ S1 S2).
Qed.

(** ** The chunks *)
Definition only_cels (m n : Z) (cs : list chunk) : list chunk :=
  flat_map (fun x => match x with ChCel y => [ChCel (moved_cel m n y)] | _ => [] end) cs.
Lemma only_in m n cs x : In x (only_cels m n cs) -> exists y, x = ChCel (moved_cel m n y) /\ In (ChCel y) cs.
Proof. intro H. apply in_flat_map in H as (y & Hy & H). destruct y; try destruct H as [<-|[]]; try destruct H. eauto. Qed.
Lemma only_nothing {B} (g : chunk -> list B) m n cs : (forall y, g (ChCel y) = []) -> flat_map g (only_cels m n cs) = [].
Proof. intro H. apply flat_map_none. apply Forall_forall. intros x Hx. apply only_in in Hx as (y & -> & _). apply H. Qed.
Lemma only_suffix {B} (g : chunk -> list chunk -> list B) m n cs : (forall y r, g (ChCel y) r = []) ->
  flat_map (fun '(x, r) => g x r) (suffixes (only_cels m n cs)) = [].
Proof.
  intro H. assert (F : Forall (fun x => exists y, x = ChCel y) (only_cels m n cs)).
  { apply Forall_forall. intros x Hx. apply only_in in Hx as (y & -> & _). eauto. }
  induction F as [|x l [y ->] _ IH]; [reflexivity|]. cbn [suffixes flat_map]. now rewrite H, IH.
Qed.
Lemma only_followers m n cs : followers (only_cels m n cs) = [].
Proof.
  assert (F : Forall (fun x => exists y, x = ChCel y) (only_cels m n cs)).
  { apply Forall_forall. intros x Hx. apply only_in in Hx as (y & -> & _). eauto. }
  destruct F as [|x l [y ->] _]; reflexivity.
Qed.
Definition stripped (m n : Z) (x : cel_chunk) : cel_chunk := cel_with (moved_cel m n x) None.
Lemma only_spec m n cs : spec_cels (only_cels m n cs) = map (stripped m n) (spec_cels cs).
Proof.
  unfold spec_cels. induction cs as [|x cs IH]; [reflexivity|]. cbn [suffixes flat_map]. rewrite map_app, <- IH.
  destruct x as [| | |x| | | | | | | | | | |]; try reflexivity. change (only_cels m n (ChCel x :: cs)) with (ChCel (moved_cel m n x) :: only_cels m n cs).
  cbn [suffixes flat_map map app]. unfold own. rewrite only_followers. cbn [nth_error]. f_equal.
  unfold stripped, moved_cel. cbn [cc_content cel_with]. destruct (cc_content x); reflexivity.
Qed.
Lemma stripped_layer m n x : cc_layer_index (stripped m n x) = cc_layer_index x.
Proof. unfold stripped, moved_cel. cbn. now destruct (cc_content x). Qed.
Lemma stripped_at m n k cs : cel_at k (map (stripped m n) cs) = option_map (stripped m n) (cel_at k cs).
Proof.
  unfold cel_at. rewrite <- map_rev. induction (rev cs) as [|x l IH]; [reflexivity|]. cbn [map find]. rewrite stripped_layer.
  destruct (_ =? _); [reflexivity|exact IH].
Qed.

Lemma joined_layers raw raw2 : spec_all_layers (joined raw raw2) = spec_all_layers raw.
Proof.
  unfold spec_all_layers. cbn [joined rw_frames]. rewrite flat_map_app, flat_map_map. rewrite (flat_map_none _ (rw_frames raw2)); [apply app_nil_r|].
  apply Forall_forall. intros fr _. cbn [moved rf_chunks]. apply (only_suffix (fun x r => match x with ChLayer l => [layer_with l (own r)] | _ => [] end)). reflexivity.
Qed.
Lemma joined_palette raw raw2 : palette_of (joined raw raw2) = palette_of raw.
Proof.
  unfold palette_of. cbn [joined rw_header].
  assert (G : forall B (g : chunk -> list B), (forall y, g (ChCel y) = []) ->
    flat_map g (all_chunks (rw_frames (joined raw raw2))) = flat_map g (all_chunks (rw_frames raw))).
  { intros B g Hg. unfold all_chunks. cbn [joined rw_frames]. rewrite flat_map_app, flat_map_app. rewrite flat_map_map, (flat_map_flat_map _ _ (rw_frames raw2)).
    rewrite (flat_map_none _ (rw_frames raw2)); [apply app_nil_r|]. apply Forall_forall. intros fr _. cbn [moved rf_chunks]. now apply only_nothing. }
  unfold spec_palette, spec_writes, new_palettes, palettes_0004, palettes_0011. rewrite !G; reflexivity.
Qed.

(** ** It can be written. *)
Lemma moved_size m n x : zlen (enc_chunk (ChCel (moved_cel m n x))) = zlen (enc_chunk (ChCel x)).
Proof.
  unfold moved_cel. destruct (cc_content x) eqn:E; try reflexivity.
  unfold enc_chunk, encode_chunk. cbn [enc_payload chunk_code]. unfold enc_cel. rewrite E. cbn [enc_content cel_code cc_content cc_layer_index cc_x cc_y cc_opacity cc_z_index].
  unfold zlen. rewrite ?app_length, ?length_le. reflexivity.
Qed.
Lemma only_sizes m n cs : zlen (flat_map enc_chunk (only_cels m n cs)) <= zlen (flat_map enc_chunk cs).
Proof.
  induction cs as [|x cs IH]; [cbn; lia|]. cbn [flat_map]. rewrite zlen_app. pose proof (zlen_nonneg (enc_chunk x)).
  destruct x as [| | |x| | | | | | | | | | |]; try (change (only_cels m n (?x :: cs)) with (only_cels m n cs)); try (cbn [only_cels flat_map app] in *; fold (only_cels m n cs); lia).
  change (only_cels m n (ChCel x :: cs)) with (ChCel (moved_cel m n x) :: only_cels m n cs). cbn [flat_map]. rewrite zlen_app, moved_size. lia.
Qed.
Lemma joined_wf raw raw2 : wf_file raw -> wf_file raw2 -> zlen (rw_frames raw) + zlen (rw_frames raw2) <= 65536 -> wf_file (joined raw raw2).
Proof.
  intros (A & B & C) (A2 & B2 & C2) HL. split; [exact A|]. cbn [joined rw_frames]. split; [now destruct (rw_frames raw)|].
  apply Forall_app. split; [exact C|]. apply Forall_map. rewrite Forall_forall in C2 |- *. intros fr Hfr. destruct (C2 fr Hfr) as (D1 & D2 & D3).
  pose proof (zlen_nonneg (rw_frames raw)) as N0. remember (zlen (rw_frames raw)) as n eqn:En. remember (zlen (rw_frames raw2)) as m eqn:Em.
  split; [exact D1|]. split.
  - cbn [moved rf_chunks]. apply Forall_forall. intros x Hx. apply only_in in Hx as (y & -> & Hy).
    rewrite Forall_forall in D2. destruct (D2 _ Hy) as [W1 W2]. split; [|now rewrite moved_size].
    unfold moved_cel. destruct (cc_content y) eqn:E; try exact W1. cbn [wf_payload] in W1 |- *.
    destruct W1 as (Q1 & Q2 & Q3 & Q4 & Q5 & Q6 & Q7). rewrite E in Q6. cbn [wf_content] in Q6.
    refine (conj Q1 (conj Q2 (conj Q3 (conj Q4 (conj Q5 (conj _ Q7)))))). cbn [cc_content wf_content].
    unfold u16, uint in *. destruct (Z.ltb_spec frame_position m); lia.
  - unfold u32, uint in *. unfold enc_raw_frame in *. cbn [moved rf_chunks rf_duration]. fold (only_cels m n (rf_chunks fr)).
    pose proof (only_sizes m n (rf_chunks fr)). rewrite !zlen_app in *. unfold zlen in *. rewrite !length_le in *. cbn [length zeros repeat] in *. lia.
Qed.

(** ** The frames *)
Lemma stripped_slots m n k cs : slots k (map (stripped m n) cs) = map (option_map (stripped m n)) (slots k cs).
Proof. unfold slots. rewrite map_map. apply map_ext. intro j. apply stripped_at. Qed.
Definition moved_frame (m n : Z) (fr : frame) : frame :=
  {| fr_duration := fr_duration fr; fr_cels := map (option_map (stripped m n)) (fr_cels fr) |}.
Lemma moved_filled m n fr : filled (moved_frame m n fr) = map (stripped m n) (filled fr).
Proof.
  unfold filled. cbn [moved_frame fr_cels]. induction (fr_cels fr) as [|o l IH]; [reflexivity|]. cbn [map flat_map]. rewrite IH, map_app.
  now destruct o.
Qed.
Lemma joined_frames raw raw2 pal pal2 : layer_count raw2 = layer_count raw ->
  f_frames (file_of (joined raw raw2) pal) = f_frames (file_of raw pal) ++
    map (moved_frame (zlen (rw_frames raw2)) (zlen (rw_frames raw))) (f_frames (file_of raw2 pal2)).
Proof.
  intro H. cbn [file_of f_frames]. unfold layer_count in *. rewrite joined_layers. cbn [joined rw_frames]. rewrite map_app. f_equal.
  rewrite !map_map. apply map_ext. intro fr. unfold moved_frame. cbn [moved rf_duration rf_chunks fr_duration fr_cels]. f_equal.
  fold (only_cels (zlen (rw_frames raw2)) (zlen (rw_frames raw)) (rf_chunks fr)). rewrite only_spec, stripped_slots, H. reflexivity.
Qed.
Lemma joined_cels raw raw2 k : Forall (fun x => cc_layer_index x < k) (frame_cels raw) -> Forall (fun x => cc_layer_index x < k) (frame_cels raw2) ->
  Forall (fun x => cc_layer_index x < k) (frame_cels (joined raw raw2)).
Proof.
  intros H H2. unfold frame_cels in *. cbn [joined rw_frames]. rewrite flat_map_app. apply Forall_app. split; [exact H|].
  rewrite Forall_forall in *. intros x Hx. apply in_flat_map in Hx as (fr & Hf & Hx). apply in_map_iff in Hf as (fr0 & <- & Hf).
  cbn [moved rf_chunks] in Hx. fold (only_cels (zlen (rw_frames raw2)) (zlen (rw_frames raw)) (rf_chunks fr0)) in Hx.
  rewrite only_spec in Hx. apply in_map_iff in Hx as (y & <- & Hy). rewrite stripped_layer. apply H2. apply in_flat_map. eauto.
Qed.
Lemma joined_rest {B} (g : list chunk -> list B) raw raw2 : (forall m n cs, g (only_cels m n cs) = []) ->
  flat_map (fun fr => g (rf_chunks fr)) (rw_frames (joined raw raw2)) = flat_map (fun fr => g (rf_chunks fr)) (rw_frames raw).
Proof.
  intro H. cbn [joined rw_frames]. rewrite flat_map_app, flat_map_map, (flat_map_none _ (rw_frames raw2)); [apply app_nil_r|].
  apply Forall_forall. intros fr _. apply H.
Qed.

Lemma image_at_left fs gs p k im : image_at fs p k = Some im -> image_at (fs ++ gs) p k = Some im.
Proof.
  unfold image_at. destruct (nth_error fs (Z.to_nat p)) eqn:E; [|discriminate]. rewrite nth_error_app1, E by (apply nth_error_Some; congruence). auto.
Qed.
Lemma image_at_right fs gs m p k im : 0 <= p -> image_at gs p k = Some im ->
  p < zlen gs /\ image_at (fs ++ map (moved_frame m (zlen fs)) gs) (p + zlen fs) k = Some im.
Proof.
  intros P. unfold image_at. destruct (nth_error gs (Z.to_nat p)) as [fr|] eqn:E; [|discriminate]. intro H.
  assert (Hp : (Z.to_nat p < length gs)%nat) by (apply nth_error_Some; congruence). unfold zlen. split; [lia|].
  rewrite nth_error_app2 by lia. replace (Z.to_nat (p + Z.of_nat (length fs)) - length fs)%nat with (Z.to_nat p) by lia.
  rewrite nth_error_map, E. cbn [option_map moved_frame fr_cels]. rewrite nth_error_map.
  destruct (nth_error (fr_cels fr) (Z.to_nat k)) as [[x|]|]; try discriminate H. cbn [option_map].
  unfold stripped, moved_cel. destruct (cc_content x) eqn:Ex; try discriminate H. cbn [cel_with cc_content]. now rewrite Ex.
Qed.

(** Every cel of a sprite that loads has a picture. *)
Lemma loaded_pictures c i s j fr x : cfg_ok c -> is_bytes i -> addressable c i -> load c i = Ok s ->
  nth_error (f_frames (af_file s)) j = Some fr -> In x (filled fr) -> exists im, picture (f_frames (af_file s)) x im.
Proof.
  intros Hc Hi Ha Hl Hfr Hx. pose proof (loaded_parse c i s Hl) as Hp. pose proof (loaded_build c i s Hl) as Hb.
  assert (P : problems (f_frames (af_file s)) = []).
  { pose proof (build_sprite_outcome (af_file s)) as H. destruct (problems _); [reflexivity|]. congruence. }
  pose proof (parsed_wf c i _ Hc Hi Ha Hp) as W.
  assert (Hin : In (Z.of_nat j, x) (file_cels (f_frames (af_file s)))).
  { apply file_cels_in. split; [lia|]. exists fr. rewrite Nat2Z.id. auto. }
  unfold problems in P. rewrite flat_map_nil in P. specialize (P _ Hin). destruct (cel_problem_none _ _ x W P) as [im Him].
  exists im. unfold resolved in Him. destruct (cc_content x) eqn:Ec; try discriminate Him.
  - injection Him as ->. left. exact Ec.
  - right. exists frame_position. apply filled_in in Hx as [k Hk]. split; [|auto].
    eapply (linked_nonneg c i (af_file s) fr x); try eassumption; eapply nth_error_In; eassumption.
Qed.

Lemma plays_joined c i i2 raw raw2 s s2 : cfg_ok c -> is_bytes i -> addressable c i -> is_bytes i2 -> addressable c i2 ->
  parse_raw_file c i = Ok raw -> no_map_error raw -> load c i = Ok s ->
  parse_raw_file c i2 = Ok raw2 -> no_map_error raw2 -> load c i2 = Ok s2 ->
  api_size s = api_size s2 -> h_color_depth (f_header (af_file s)) = h_color_depth (f_header (af_file s2)) -> f_palette (af_file s) = f_palette (af_file s2) ->
  api_layers s = api_layers s2 -> length (f_layers (af_file s)) = length (f_layers (af_file s2)) ->
  zlen (rw_frames raw) + zlen (rw_frames raw2) <= 65536 -> addressable c (enc_file (joined raw raw2)) ->
  exists s', load c (enc_file (joined raw raw2)) = Ok s' /\ api_size s' = api_size s /\ api_layers s' = api_layers s /\
    api_tags s' = api_tags s /\ api_slices s' = api_slices s /\
    length (api_frames s') = (length (api_frames s) + length (api_frames s2))%nat /\
    (forall k sf, nth_error (api_frames s) k = Some sf -> exists sf', nth_error (api_frames s') k = Some sf' /\ sf_duration sf' = sf_duration sf /\
       forall inflate target sel, render_frame c inflate s' (Z.of_nat k) target sel = render_frame c inflate s (Z.of_nat k) target sel) /\
    (forall k sf, nth_error (api_frames s2) k = Some sf -> exists sf', nth_error (api_frames s') (length (api_frames s) + k) = Some sf' /\
       sf_duration sf' = sf_duration sf /\
       forall inflate target sel, render_frame c inflate s' (Z.of_nat (length (api_frames s) + k)) target sel = render_frame c inflate s2 (Z.of_nat k) target sel).
Proof.
  intros Hc Hi Ha Hi2 Ha2 Hr Hn Hl Hr2 Hn2 Hl2 Hsize Hd Hpal HL Hcount Hlen Haw'.
  unfold api_size in Hsize. injection Hsize as Hw Hh.
  destruct (proj2 (parser_range c raw Hc) (conj Hn (ex_intro _ i (conj Hi (conj Ha Hr))))) as [Hwf _].
  destruct (proj2 (parser_range c raw2 Hc) (conj Hn2 (ex_intro _ i2 (conj Hi2 (conj Ha2 Hr2))))) as [Hwf2 _].
  pose proof (joined_wf raw raw2 Hwf Hwf2 Hlen) as Hw'.
  assert (Hi' : is_bytes (enc_file (joined raw raw2))) by apply (file_writes not_maps _ Hw').
  assert (Hr' : parse_raw_file c (enc_file (joined raw raw2)) = Ok (joined raw raw2)) by now apply write_read.
  destruct (parse_file_ok c i _ Hc Hi Ha (loaded_parse c i s Hl)) as (raw0 & pal & _ & Hr0 & HP & HF & HC). assert (raw0 = raw) as -> by congruence.
  destruct (parse_file_ok c i2 _ Hc Hi2 Ha2 (loaded_parse c i2 s2 Hl2)) as (raw0 & pal2 & _ & Hr02 & HP2 & HF2 & HC2). assert (raw0 = raw2) as -> by congruence.
  assert (Hcnt : layer_count raw2 = layer_count raw).
  { rewrite HF, HF2 in Hcount. cbn [file_of f_layers] in Hcount. unfold layer_count, zlen. now rewrite Hcount. }
  rewrite Hcnt in HC2.
  assert (Hp' : parse_file c (enc_file (joined raw raw2)) = Ok (file_of (joined raw raw2) pal)).
  { rewrite parse_file_eq by assumption. rewrite Hr'. cbn [bind]. unfold spec_outcome. rewrite joined_palette, HP.
    destruct (find _ _) as [x|] eqn:E; [|reflexivity]. exfalso. apply find_some in E as [Hin E].
    unfold layer_count in E. rewrite joined_layers in E. fold (layer_count raw) in E.
    pose proof (joined_cels raw raw2 _ HC HC2) as K. rewrite Forall_forall in K. specialize (K x Hin). unfold bad_cel in E. lia. }
  pose proof (parsed_wf c _ _ Hc Hi' Haw' Hp') as W'.
  pose proof (joined_frames raw raw2 pal pal2 Hcnt) as EF. rewrite <- HF, <- HF2 in EF.
  set (fs := f_frames (af_file s)) in *. set (gs := f_frames (af_file s2)) in *. set (fs' := f_frames (file_of (joined raw raw2) pal)) in *.
  assert (En : zlen (rw_frames raw) = zlen fs) by (subst fs; rewrite HF; cbn [file_of f_frames]; unfold zlen; now rewrite map_length).
  assert (Em : zlen (rw_frames raw2) = zlen gs) by (subst gs; rewrite HF2; cbn [file_of f_frames]; unfold zlen; now rewrite map_length).
  rewrite En, Em in EF.
  assert (Left : forall k fr x, nth_error fs k = Some fr -> In x (filled fr) -> alike fs fs' x x).
  { intros k fr x Hk Hx. destruct (loaded_pictures c i s k fr x Hc Hi Ha Hl Hk Hx) as [im Him]. do 3 (split; [reflexivity|]). exists im. split; [exact Him|].
    destruct Him as [H|(p & P0 & P1 & P2)]; [left; exact H|right]. exists p. split; [exact P0|]. split; [exact P1|]. rewrite EF. now apply image_at_left. }
  assert (Right : forall k fr x, nth_error gs k = Some fr -> In x (filled fr) -> alike gs fs' x (stripped (zlen gs) (zlen fs) x)).
  { intros k fr x Hk Hx. destruct (loaded_pictures c i2 s2 k fr x Hc Hi2 Ha2 Hl2 Hk Hx) as [im Him]. unfold alike. rewrite stripped_layer. split; [reflexivity|].
    unfold stripped, moved_cel. destruct Him as [H|(p & P0 & P1 & P2)].
    - rewrite H. split; [reflexivity|]. split; [reflexivity|]. exists im. split; left; exact H.
    - rewrite P1. split; [reflexivity|]. split; [reflexivity|]. exists im. split; [right; eauto|]. right. cbn [cel_with cc_content cc_layer_index].
      destruct (image_at_right fs gs (zlen gs) p _ im P0 P2) as [Q1 Q2]. destruct (Z.ltb_spec p (zlen gs)); [|lia].
      pose proof (zlen_nonneg fs). exists (p + zlen fs). split; [lia|]. split; [reflexivity|]. rewrite EF. exact Q2. }
  destruct (pictured_loads c _ _ Hp' W') as [s' Hl'].
  { intros j fr' y Hj Hy. change (nth_error fs' j = Some fr') in Hj. rewrite EF in Hj. change (exists im, picture fs' y im).
    destruct (Nat.lt_ge_cases j (length fs)) as [Hlt|Hge].
    - rewrite nth_error_app1 in Hj by exact Hlt. destruct (Left _ _ _ Hj Hy) as (_ & _ & _ & im & _ & H). eauto.
    - rewrite nth_error_app2, nth_error_map in Hj by exact Hge. destruct (nth_error gs _) as [fr|] eqn:Eg; [|discriminate]. injection Hj as <-.
      rewrite moved_filled in Hy. apply in_map_iff in Hy as (x & <- & Hx). destruct (Right _ _ _ Eg Hx) as (_ & _ & _ & im & _ & H). eauto. }
  pose proof (build_sprite_ok _ _ (loaded_build c _ s' Hl')) as (_ & L' & T' & _ & FR').
  pose proof (build_sprite_ok _ _ (loaded_build c i s Hl)) as (_ & L & T & _ & FR).
  pose proof (build_sprite_ok _ _ (loaded_build c i2 s2 Hl2)) as (_ & _ & _ & _ & FR2).
  assert (F' : af_file s' = file_of (joined raw raw2) pal) by (pose proof (loaded_parse c _ s' Hl'); congruence).
  apply Forall2_length in FR, FR2, FR'. rewrite numbered_length in FR, FR2, FR'. fold fs in FR. fold gs in FR2. rewrite F' in FR'. fold fs' in FR'.
  assert (EFs : f_frames (af_file s') = fs') by now rewrite F'.
  assert (EL : af_layers s = af_layers s').
  { rewrite L, L', F', HF. cbn [file_of f_layers]. now rewrite joined_layers. }
  exists s'. split; [exact Hl'|]. split; [unfold api_size; rewrite F', HF; reflexivity|]. split; [symmetry; exact EL|]. split.
  { unfold api_tags. rewrite T, T', F', HF. cbn [file_of f_tags]. rewrite joined_rest; [reflexivity|]. intros m n cs.
    apply (only_suffix (fun x r => match x with ChTags t => give (tc_tags t) (followers r) | _ => [] end)). reflexivity. }
  split.
  { unfold api_slices. rewrite F', HF. cbn [file_of f_slices]. apply (joined_rest spec_slices). intros m n cs.
    apply (only_suffix (fun x r => match x with ChSlice l => [slice_with l (own r)] | _ => [] end)). reflexivity. }
  assert (Len : length (api_frames s) = length fs) by (symmetry; exact FR).
  split; [unfold api_frames; rewrite <- FR, <- FR2, <- FR', EF, app_length, map_length; reflexivity|].
  assert (Can : same_canvas s s') by (unfold same_canvas, canvas_width, canvas_height; rewrite F', HF; cbn [file_of f_header joined rw_header]; auto).
  assert (Can2 : same_canvas s2 s').
  { unfold same_canvas, canvas_width, canvas_height in *. rewrite HF in Hw, Hh, Hd. rewrite F'. cbn [file_of f_header joined rw_header] in *. auto. }
  assert (Pal : f_palette (af_file s) = f_palette (af_file s')) by (rewrite F', HF; reflexivity).
  split; intros k sf Hk.
  - destruct (loaded_frame c i s Hl k sf Hk) as (fr & Hfr & D & _ & _). fold fs in Hfr.
    assert (Hfr' : nth_error (f_frames (af_file s')) k = Some fr) by (rewrite EFs, EF, nth_error_app1; [exact Hfr|apply nth_error_Some; congruence]).
    destruct (loaded_frame' c _ s' Hl' k fr Hfr') as (sf' & Hk' & D' & _). exists sf'. split; [exact Hk'|]. split; [congruence|].
    apply (frame_from c i (enc_file (joined raw raw2)) s s' k k fr fr); try assumption. rewrite EFs. fold fs.
    pose proof (Left k fr) as G. clear - G Hfr. induction (filled fr) as [|x l IH]; constructor; [apply G; [exact Hfr|now left]|]. apply IH. intros y E Hy. apply G; [exact E|now right].
  - rewrite Len. destruct (loaded_frame c i2 s2 Hl2 k sf Hk) as (fr & Hfr & D & _ & _). fold gs in Hfr.
    assert (Hfr' : nth_error (f_frames (af_file s')) (length fs + k) = Some (moved_frame (zlen gs) (zlen fs) fr)).
    { rewrite EFs, EF, nth_error_app2 by lia. replace (length fs + k - length fs)%nat with k by lia. now rewrite nth_error_map, Hfr. }
    destruct (loaded_frame' c _ s' Hl' _ _ Hfr') as (sf' & Hk' & D' & _). exists sf'. split; [exact Hk'|]. split; [rewrite D', D; reflexivity|].
    apply (frame_from c i2 (enc_file (joined raw raw2)) s2 s' k (length fs + k) fr (moved_frame (zlen gs) (zlen fs) fr)); try assumption; try congruence.
    { unfold api_layers in HL. congruence. }
    rewrite EFs. fold gs. rewrite moved_filled.
    pose proof (Right k fr) as G. clear - G Hfr. induction (filled fr) as [|x l IH]; constructor; [apply G; [exact Hfr|now left]|]. apply IH. intros y E Hy. apply G; [exact E|now right].
Qed.
