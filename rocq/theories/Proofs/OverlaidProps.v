(** One sprite above another (C136). *)
From Verif.Model Require Import Loader.
From Verif.Spec Require Import Bytes Format Encode FileSpec LoaderSpec ImageSpec RenderSpec Published Edits Taken Overlaid.
From Verif.Proofs Require Import ParseLib FileFacts PaletteFacts FileProps FileFinal LoaderFacts LoaderProps ImageFacts RenderFacts RenderProps EncodeFacts EncodeProps WriterFinal PublishedProps EditFacts EditProps TakenProps BackwardsProps JoinedProps.

(** ** Rendering keeps the length of the target. *)
Lemma set4_keeps {E} t k a b x y r : @set4 E t k a b x y = Ok r -> zlen r = zlen t.
Proof.
  unfold set4. destruct (set_index t k a) as [t1| |] eqn:E1; cbn [bind]; try discriminate.
  destruct (set_index t1 (k + 1) b) as [t2| |] eqn:E2; cbn [bind]; try discriminate.
  destruct (set_index t2 (k + 2) x) as [t3| |] eqn:E3; cbn [bind]; try discriminate. intro E4.
  apply set_index_length in E1, E2, E3, E4. congruence.
Qed.
Lemma fold_keeps {E B} (f : bytes -> B -> out E bytes) : (forall t b r, f t b = Ok r -> zlen r = zlen t) ->
  forall l t r, fold_out f l t = Ok r -> zlen r = zlen t.
Proof.
  intros H. induction l as [|b l IH]; intros t r E0; cbn [fold_out] in E0; [congruence|].
  destruct (f t b) as [t1| |] eqn:E1; cbn [bind] in E0; try discriminate. apply H in E1. apply IH in E0. congruence.
Qed.
Lemma render_pixel_keeps c w h cel ct f o t y x r : render_pixel c w h cel ct f o t y x = Ok r -> zlen r = zlen t.
Proof.
  unfold render_pixel. destruct (checked_add_signed16 x _) as [tx|]; [|congruence]. destruct (_ <=? _); [congruence|].
  destruct (checked_add_signed16 y _) as [ty|]; [|congruence]. destruct (_ <=? _); [congruence|].
  repeat match goal with |- bind ?m _ = _ -> _ => destruct m; cbn [bind]; try discriminate end. apply set4_keeps.
Qed.
Lemma render_cel_keeps c inflate s sel t cel r : render_cel c inflate s sel t cel = Ok r -> zlen r = zlen t.
Proof.
  unfold render_cel. destruct (nth_error _ _) as [l|]; [|congruence]. destruct (_ || _); [congruence|].
  repeat match goal with |- bind ?m _ = _ -> _ => destruct m; cbn [bind]; try discriminate end. unfold render_pixels.
  apply fold_keeps. intros t1 y r1. apply fold_keeps. intros t2 x r2. apply render_pixel_keeps.
Qed.

(** ** The chunks *)
Lemma lifted_in n cs x : In x (lifted n cs) -> (exists l, x = ChLayer l /\ In (ChLayer l) cs) \/ (exists y, x = ChCel (lifted_cel n y) /\ In (ChCel y) cs).
Proof. intro H. apply in_flat_map in H as (y & Hy & H). destruct y; try destruct H as [<-|[]]; try destruct H; eauto. Qed.
Definition bearer (x : chunk) : Prop := match x with ChLayer _ | ChCel _ => True | _ => False end.
Lemma lifted_bearers n cs : Forall bearer (lifted n cs).
Proof. apply Forall_forall. intros x Hx. apply lifted_in in Hx as [(l & -> & _)|(y & -> & _)]; exact I. Qed.
Lemma bearer_followers l : Forall bearer l -> followers l = [].
Proof. intro H. destruct H as [|x l H _]; [reflexivity|]. now destruct x. Qed.
Lemma app_followers cs l : Forall bearer l -> followers (cs ++ l) = followers cs.
Proof.
  intro H. induction cs as [|x cs IH]; [now apply bearer_followers|]. destruct x; try reflexivity. cbn [app followers]. now rewrite IH.
Qed.
Lemma app_suffix {B} (g : chunk -> list chunk -> list B) cs l : (forall x r, g x (r ++ l) = g x r) ->
  flat_map (fun '(x, r) => g x r) (suffixes (cs ++ l)) = flat_map (fun '(x, r) => g x r) (suffixes cs) ++ flat_map (fun '(x, r) => g x r) (suffixes l).
Proof. intro H. induction cs as [|x cs IH]; [reflexivity|]. cbn [app suffixes flat_map]. now rewrite IH, H, app_assoc. Qed.
Lemma bearer_suffix {B} (g : chunk -> list chunk -> list B) l : Forall bearer l -> (forall x r, bearer x -> g x r = []) ->
  flat_map (fun '(x, r) => g x r) (suffixes l) = [].
Proof. intros H Hg. induction H as [|x l Hx _ IH]; [reflexivity|]. cbn [suffixes flat_map]. now rewrite (Hg x l Hx), IH. Qed.

Definition bare (l : layer_chunk) : layer_chunk := layer_with l None.
Definition up (n : Z) (x : cel_chunk) : cel_chunk := cel_with (lifted_cel n x) None.
Lemma lifted_layers n cs : spec_layers (lifted n cs) = map bare (spec_layers cs).
Proof.
  unfold spec_layers. induction cs as [|x cs IH]; [reflexivity|]. cbn [suffixes flat_map]. rewrite map_app, <- IH.
  destruct x; try reflexivity. change (lifted n (ChLayer l :: cs)) with (ChLayer l :: lifted n cs).
  cbn [suffixes flat_map map app]. unfold own. now rewrite (bearer_followers _ (lifted_bearers n cs)).
Qed.
Lemma lifted_cels n cs : spec_cels (lifted n cs) = map (up n) (spec_cels cs).
Proof.
  unfold spec_cels. induction cs as [|x cs IH]; [reflexivity|]. cbn [suffixes flat_map]. rewrite map_app, <- IH.
  destruct x as [| | |x| | | | | | | | | | |]; try reflexivity. change (lifted n (ChCel x :: cs)) with (ChCel (lifted_cel n x) :: lifted n cs).
  cbn [suffixes flat_map map app]. unfold own. now rewrite (bearer_followers _ (lifted_bearers n cs)).
Qed.
Lemma both_layers n cs ds : spec_layers (cs ++ lifted n ds) = spec_layers cs ++ map bare (spec_layers ds).
Proof.
  rewrite <- (lifted_layers n). apply (app_suffix (fun x r => match x with ChLayer l => [layer_with l (own r)] | _ => [] end)).
  intros x r. unfold own. now rewrite (app_followers r _ (lifted_bearers n ds)).
Qed.
Lemma both_cels n cs ds : spec_cels (cs ++ lifted n ds) = spec_cels cs ++ map (up n) (spec_cels ds).
Proof.
  rewrite <- (lifted_cels n). apply (app_suffix (fun x r => match x with ChCel l => [cel_with l (own r)] | _ => [] end)).
  intros x r. unfold own. now rewrite (app_followers r _ (lifted_bearers n ds)).
Qed.
Lemma both_tags n cs ds : spec_tags (cs ++ lifted n ds) = spec_tags cs.
Proof.
  unfold spec_tags. rewrite (app_suffix (fun x r => match x with ChTags t => give (tc_tags t) (followers r) | _ => [] end)).
  - rewrite (bearer_suffix _ _ (lifted_bearers n ds)); [apply app_nil_r|]. now intros [].
  - intros x r. now rewrite (app_followers r _ (lifted_bearers n ds)).
Qed.
Lemma both_slices n cs ds : spec_slices (cs ++ lifted n ds) = spec_slices cs.
Proof.
  unfold spec_slices. rewrite (app_suffix (fun x r => match x with ChSlice l => [slice_with l (own r)] | _ => [] end)).
  - rewrite (bearer_suffix _ _ (lifted_bearers n ds)); [apply app_nil_r|]. now intros [].
  - intros x r. unfold own. now rewrite (app_followers r _ (lifted_bearers n ds)).
Qed.

(** ** The frames of the file *)
Lemma over_flat {B} (g : list chunk -> list B) n : (forall cs ds, g (cs ++ lifted n ds) = g cs) -> forall fs gs,
  flat_map (fun fr => g (rf_chunks fr)) (overlaid_frames n fs gs) = flat_map (fun fr => g (rf_chunks fr)) fs.
Proof.
  intro H. induction fs as [|fr fs IH]; intros [|gr gs]; try reflexivity. cbn [overlaid_frames flat_map rf_chunks]. now rewrite H, IH.
Qed.
Lemma over_nth n : forall fs gs k, nth_error (overlaid_frames n fs gs) k =
  match nth_error fs k, nth_error gs k with
  | Some fr, Some gr => Some {| rf_duration := rf_duration fr; rf_chunks := rf_chunks fr ++ lifted n (rf_chunks gr) |}
  | o, _ => o
  end.
Proof.
  induction fs as [|fr fs IH]; intros [|gr gs] [|k]; cbn [overlaid_frames nth_error]; try reflexivity; [|apply IH].
  destruct (nth_error fs k); reflexivity.
Qed.
Lemma over_length n : forall fs gs, length (overlaid_frames n fs gs) = length fs.
Proof. induction fs as [|fr fs IH]; intros [|gr gs]; try reflexivity. cbn [overlaid_frames length]. now rewrite IH. Qed.
Lemma no_layers cs : (forall l, ~ In (ChLayer l) cs) -> spec_layers cs = [].
Proof.
  unfold spec_layers. induction cs as [|x cs IH]; intro H; [reflexivity|]. cbn [suffixes flat_map].
  rewrite IH by (intros l Hl; apply (H l); now right). destruct x; try reflexivity. exfalso. apply (H l). now left.
Qed.
Lemma over_layers raw raw2 : layers_first raw -> length (rw_frames raw) = length (rw_frames raw2) ->
  spec_all_layers (overlaid raw raw2) = spec_all_layers raw ++ map bare (spec_all_layers raw2).
Proof.
  unfold layers_first, spec_all_layers. cbn [overlaid rw_frames]. generalize (layer_count raw) as n. intro n.
  destruct (rw_frames raw) as [|fr fs], (rw_frames raw2) as [|gr gs]; cbn [length]; try discriminate; [reflexivity|]. intros H HL.
  cbn [overlaid_frames flat_map rf_chunks]. rewrite both_layers, map_app.
  assert (N : Forall (fun fr => spec_layers (rf_chunks fr) = []) fs).
  { apply Forall_forall. intros fr0 Hf. apply In_nth_error in Hf as [k Hk]. apply no_layers. intro l. exact (H k fr0 l Hk). }
  injection HL as HL. clear H.
  assert (G : flat_map (fun fr0 => spec_layers (rf_chunks fr0)) (overlaid_frames n fs gs) = map bare (flat_map (fun fr0 => spec_layers (rf_chunks fr0)) gs)).
  { revert gs HL. induction N as [|f fs Hf N IH]; intros [|g gs] HL; try discriminate HL; [reflexivity|].
    cbn [overlaid_frames flat_map rf_chunks]. rewrite both_layers, Hf, map_app, IH by (cbn in HL; lia). reflexivity. }
  rewrite G, (flat_map_none _ fs N), app_nil_r, app_assoc. reflexivity.
Qed.
Lemma over_palette raw raw2 : palette_of (overlaid raw raw2) = palette_of raw.
Proof.
  assert (G : forall B (g : chunk -> list B), (forall x, bearer x -> g x = []) ->
    flat_map g (all_chunks (rw_frames (overlaid raw raw2))) = flat_map g (all_chunks (rw_frames raw))).
  { intros B g Hg. unfold all_chunks. rewrite !flat_map_flat_map. cbn [overlaid rw_frames]. apply (over_flat (flat_map g)). intros cs ds.
    rewrite flat_map_app, (flat_map_none g (lifted _ ds)); [apply app_nil_r|]. eapply Forall_impl; [|apply lifted_bearers]. exact Hg. }
  unfold palette_of, spec_palette, spec_writes, new_palettes, palettes_0004, palettes_0011. cbn [overlaid rw_header].
  rewrite !G; [reflexivity|..]; intros [] H; try reflexivity; destruct H.
Qed.

Definition over_frame (n : Z) (fr gr : frame) : frame :=
  {| fr_duration := fr_duration fr; fr_cels := fr_cels fr ++ map (option_map (up n)) (fr_cels gr) |}.
Lemma over_filled n fr gr : filled (over_frame n fr gr) = filled fr ++ map (up n) (filled gr).
Proof.
  unfold filled. cbn [over_frame fr_cels]. rewrite flat_map_app. f_equal. induction (fr_cels gr) as [|o l IH]; [reflexivity|].
  cbn [map flat_map]. rewrite IH, map_app. now destruct o.
Qed.
Lemma zrange_app n m : 0 <= n -> 0 <= m -> zrange (n + m) = zrange n ++ map (fun k => k + n) (zrange m).
Proof.
  intros Hn Hm. unfold zrange. rewrite Z2Nat.inj_add, seq_app, map_app, map_map by lia. f_equal. rewrite Nat.add_0_l.
  rewrite <- (Nat.add_0_r (Z.to_nat n)) at 1. generalize 0%nat. induction (Z.to_nat m) as [|j IH]; intro k; [reflexivity|]. cbn [seq map].
  rewrite <- Nat.add_succ_r, IH. f_equal. lia.
Qed.
Lemma find_all_none {A} (f : A -> bool) l : Forall (fun x => f x = false) l -> find f l = None.
Proof. induction 1 as [|x l Hx _ IH]; [reflexivity|]. cbn [find]. now rewrite Hx. Qed.
Lemma find_app {A} (f : A -> bool) a b : find f (a ++ b) = match find f a with Some x => Some x | None => find f b end.
Proof. induction a as [|x a IH]; [reflexivity|]. cbn [app find]. now destruct (f x). Qed.
Lemma over_slots n m A B : 0 <= n -> 0 <= m -> Forall (fun x => cc_layer_index x < n) A -> Forall (fun x => 0 <= cc_layer_index x) B ->
  slots (n + m) (A ++ map (up n) B) = slots n A ++ map (option_map (up n)) (slots m B).
Proof.
  intros Hn Hm HA HB. unfold slots. rewrite zrange_app, map_app, !map_map by assumption. f_equal; apply map_ext_in; intros k Hk; apply zrange_in in Hk.
  - unfold cel_at. rewrite rev_app_distr, find_app, find_all_none; [reflexivity|]. apply Forall_rev. apply Forall_map.
    eapply Forall_impl; [|exact HB]. intros x Hx. unfold up. cbn [cel_with lifted_cel cc_layer_index] in *. lia.
  - unfold cel_at. rewrite rev_app_distr, find_app, <- map_rev.
    rewrite (find_all_none _ (rev A)) by (apply Forall_rev; eapply Forall_impl; [|exact HA]; intros x Hx; cbn in *; lia).
    induction (rev B) as [|x l IH]; [reflexivity|]. cbn [map find]. unfold up at 1. cbn [cel_with lifted_cel cc_layer_index].
    replace (cc_layer_index x + n =? k + n) with (cc_layer_index x =? k) by lia. destruct (_ =? _); [reflexivity|exact IH].
Qed.

(** ** It can be written. *)
Lemma over_wf raw raw2 : wf_file raw -> wf_file raw2 ->
  Forall (fun x => cc_layer_index x < layer_count raw2) (frame_cels raw2) -> layer_count raw + layer_count raw2 <= 65536 ->
  Forall (fun fr => zlen (enc_raw_frame fr) < 2 ^ 32) (rw_frames (overlaid raw raw2)) -> wf_file (overlaid raw raw2).
Proof.
  intros (A & B & C) (A2 & B2 & C2) HC HL HZ. split; [exact A|]. split.
  - intro E0. apply (f_equal (@length _)) in E0. cbn [overlaid rw_frames] in E0. rewrite over_length in E0. destruct (rw_frames raw); [contradiction|discriminate].
  - rewrite Forall_forall in *. intros fr' Hin. pose proof (HZ _ Hin) as Z0. apply In_nth_error in Hin as [k Hk]. cbn [overlaid rw_frames] in Hk. rewrite over_nth in Hk.
    destruct (nth_error (rw_frames raw) k) as [fr|] eqn:E1; [|discriminate]. pose proof (C fr (nth_error_In _ _ E1)) as (D1 & D2 & D3).
    destruct (nth_error (rw_frames raw2) k) as [gr|] eqn:E2; [|injection Hk as <-; split; auto]. pose proof (C2 gr (nth_error_In _ _ E2)) as (G1 & G2 & G3).
    injection Hk as <-. split; [exact D1|]. split; [|unfold u32, uint; pose proof (zlen_nonneg (enc_raw_frame {| rf_duration := rf_duration fr; rf_chunks := rf_chunks fr ++ lifted (layer_count raw) (rf_chunks gr) |})); split; [assumption|exact Z0]].
    cbn [rf_chunks]. apply Forall_app. split; [exact D2|]. apply Forall_forall. intros x Hx. rewrite Forall_forall in G2.
    apply lifted_in in Hx as [(l & -> & Hy)|(y & -> & Hy)]; [now apply G2|]. destruct (G2 _ Hy) as [W1 W2].
    split; [|exact W2]. destruct W1 as (Q1 & Q2). split; [|exact Q2].
    assert (Hs : exists u, In (cel_with y u) (frame_cels raw2)).
    { assert (K : exists u, In (cel_with y u) (spec_cels (rf_chunks gr))).
      { unfold spec_cels. clear - Hy. induction (rf_chunks gr) as [|z l IH]; [destruct Hy|]. destruct Hy as [->|Hy].
        - eexists. cbn [suffixes flat_map]. apply in_or_app. left. left. reflexivity.
        - destruct (IH Hy) as [u Hu]. exists u. cbn [suffixes flat_map]. apply in_or_app. now right. }
      destruct K as [u Hu]. exists u. apply in_flat_map. exists gr. split; [eapply nth_error_In; exact E2|exact Hu]. }
    destruct Hs as [u Hu]. specialize (HC _ Hu). cbn [cel_with cc_layer_index] in HC. unfold layer_count in *. unfold u16, uint in *.
    pose proof (zlen_nonneg (spec_all_layers raw)). cbn [lifted_cel cc_layer_index]. change (2 ^ (8 * 2)) with 65536 in *. lia.
Qed.

(** ** Pictures *)
Definition seen_alike (s s' : ase_file) (sel sel' : layer_selection) (x y : cel_chunk) : Prop :=
  cc_x y = cc_x x /\ cc_y y = cc_y x /\
  (exists im, picture (f_frames (af_file s)) x im /\ picture (f_frames (af_file s')) y im) /\
  forall fc fc', fc_layer_index fc = cc_layer_index x -> fc_layer_index fc' = cc_layer_index y -> drawn s sel fc = drawn s' sel' fc'.
Lemma shown_alike s s' sel sel' k fr fr' :
  Forall wf_frame (f_frames (af_file s)) -> Forall wf_frame (f_frames (af_file s')) ->
  af_images s = map snd (image_cels (f_frames (af_file s))) -> af_images s' = map snd (image_cels (f_frames (af_file s'))) ->
  nth_error (f_frames (af_file s)) k = Some fr -> nth_error (f_frames (af_file s')) k = Some fr' ->
  forall xs ys, (forall x, In x xs -> In x (filled fr)) -> (forall y, In y ys -> In y (filled fr')) -> Forall2 (seen_alike s s' sel sel') xs ys ->
  forall a b, Forall2 (shows (f_frames (af_file s)) (Z.of_nat k)) xs a -> Forall2 (shows (f_frames (af_file s')) (Z.of_nat k)) ys b ->
  shown s sel a = shown s' sel' b.
Proof.
  intros W W' I I' Hfr Hfr' xs ys Hx Hy HS. induction HS as [|x y xs ys Hxy HS IH]; intros a b Ha Hb;
    inversion Ha as [|? fc ? a' Hfc Ha2]; inversion Hb as [|? fc' ? b' Hfc' Hb2]; subst; [reflexivity|].
  unfold shown. cbn [flat_map]. f_equal.
  2: { apply IH; try assumption; intros z Hz; [apply Hx|apply Hy]; now right. }
  destruct (shows_resolved _ k fr x fc W Hfr (Hx x (or_introl eq_refl)) Hfc) as (im & N1 & R1 & Z1).
  destruct (shows_resolved _ k fr' y fc' W' Hfr' (Hy y (or_introl eq_refl)) Hfc') as (im' & N2 & R2 & Z2).
  destruct Hxy as (E1 & E2 & (im2 & P1 & P2) & HD). apply picture_resolved in P1, P2.
  assert (im = im2) as -> by congruence. assert (im' = im2) as -> by congruence.
  destruct Hfc as (O1 & Y1 & _). destruct Hfc' as (O2 & Y2 & _).
  rewrite (HD fc fc' Y1 Y2). destruct (drawn s' sel' fc'); [|reflexivity]. rewrite I, I', N1, N2, Z1, Z2, O1, O2, E1, E2. reflexivity.
Qed.

Lemma lies_over c i i2 raw raw2 s s2 : cfg_ok c -> is_bytes i -> addressable c i -> is_bytes i2 -> addressable c i2 ->
  parse_raw_file c i = Ok raw -> no_map_error raw -> load c i = Ok s ->
  parse_raw_file c i2 = Ok raw2 -> no_map_error raw2 -> load c i2 = Ok s2 ->
  api_size s = api_size s2 -> h_color_depth (f_header (af_file s)) = h_color_depth (f_header (af_file s2)) -> f_palette (af_file s) = f_palette (af_file s2) ->
  length (api_frames s) = length (api_frames s2) -> layers_first raw -> length (api_layers s) = length (f_layers (af_file s)) ->
  layer_count raw + layer_count raw2 <= 65536 -> Forall (fun fr => zlen (enc_raw_frame fr) < 2 ^ 32) (rw_frames (overlaid raw raw2)) ->
  addressable c (enc_file (overlaid raw raw2)) ->
  exists s', load c (enc_file (overlaid raw raw2)) = Ok s' /\ api_size s' = api_size s /\ api_layers s' = api_layers s ++ api_layers s2 /\
    api_tags s' = api_tags s /\ api_slices s' = api_slices s /\ length (api_frames s') = length (api_frames s) /\
    forall k sf, nth_error (api_frames s) k = Some sf -> exists sf', nth_error (api_frames s') k = Some sf' /\ sf_duration sf' = sf_duration sf /\
      forall inflate target sel sel2 sel', chooses_both (api_layers s) (api_layers s2) sel sel2 sel' ->
      render_frame c inflate s' (Z.of_nat k) target sel' =
      match render_frame c inflate s (Z.of_nat k) target sel with
      | Ok r => render_frame c inflate s2 (Z.of_nat k) r sel2
      | Err e => Err e
      | Panic p => Panic p
      end.
Proof.
  intros Hc Hi Ha Hi2 Ha2 Hr Hn Hl Hr2 Hn2 Hl2 Hsize Hd Hpal HLen HLF HKept Hcount Hbig Haw'.
  unfold api_size in Hsize. injection Hsize as Hw Hh.
  destruct (proj2 (parser_range c raw Hc) (conj Hn (ex_intro _ i (conj Hi (conj Ha Hr))))) as [Hwf _].
  destruct (proj2 (parser_range c raw2 Hc) (conj Hn2 (ex_intro _ i2 (conj Hi2 (conj Ha2 Hr2))))) as [Hwf2 _].
  destruct (parse_file_ok c i _ Hc Hi Ha (loaded_parse c i s Hl)) as (raw0 & pal & _ & Hr0 & HP & HF & HC). assert (raw0 = raw) as -> by congruence.
  destruct (parse_file_ok c i2 _ Hc Hi2 Ha2 (loaded_parse c i2 s2 Hl2)) as (raw0 & pal2 & _ & Hr02 & HP2 & HF2 & HC2). assert (raw0 = raw2) as -> by congruence.
  pose proof (over_wf raw raw2 Hwf Hwf2 HC2 Hcount Hbig) as Hw'.
  assert (Hi' : is_bytes (enc_file (overlaid raw raw2))) by apply (file_writes not_maps _ Hw').
  assert (Hr' : parse_raw_file c (enc_file (overlaid raw raw2)) = Ok (overlaid raw raw2)) by now apply write_read.
  pose proof (build_sprite_ok _ _ (loaded_build c i s Hl)) as (_ & L & T & I & FR).
  pose proof (build_sprite_ok _ _ (loaded_build c i2 s2 Hl2)) as (_ & L2 & _ & I2 & FR2).
  apply Forall2_length in FR, FR2. rewrite numbered_length in FR, FR2.
  assert (ELen : length (rw_frames raw) = length (rw_frames raw2)).
  { unfold api_frames in HLen. rewrite <- FR, <- FR2, HF, HF2 in HLen. cbn [file_of f_frames] in HLen. now rewrite !map_length in HLen. }
  pose proof (over_layers raw raw2 HLF ELen) as EL.
  assert (ECount : layer_count (overlaid raw raw2) = layer_count raw + layer_count raw2).
  { unfold layer_count, zlen. rewrite EL, app_length, map_length. lia. }
  pose proof (zlen_nonneg (spec_all_layers raw)) as N0. fold (layer_count raw) in N0.
  pose proof (zlen_nonneg (spec_all_layers raw2)) as M0. fold (layer_count raw2) in M0.
  set (n := layer_count raw) in *. set (m := layer_count raw2) in *.
  assert (HB : Forall (fun x => 0 <= cc_layer_index x) (frame_cels raw2)).
  { apply Forall_forall. intros x Hx. apply in_flat_map in Hx as (fr & Hfr & Hx). unfold spec_cels in Hx. apply in_flat_map in Hx as ([y r] & Hy & Hx).
    destruct y as [| | |y| | | | | | | | | | |]; try (exfalso; exact Hx). destruct Hx as [<-|[]]. cbn [cel_with cc_layer_index].
    destruct Hwf2 as (_ & _ & W2). rewrite Forall_forall in W2. destruct (W2 fr Hfr) as (_ & W3 & _). rewrite Forall_forall in W3.
    assert (Hin : In (ChCel y) (rf_chunks fr)).
    { clear - Hy. induction (rf_chunks fr) as [|z l IH]; [destruct Hy|]. destruct Hy as [E|Hy]; [injection E as -> _; now left|right; auto]. }
    destruct (W3 _ Hin) as [(Q1 & _) _]. unfold u16, uint in Q1. lia. }
  assert (Hp' : parse_file c (enc_file (overlaid raw raw2)) = Ok (file_of (overlaid raw raw2) pal)).
  { rewrite parse_file_eq by assumption. rewrite Hr'. cbn [bind]. unfold spec_outcome. rewrite over_palette, HP, ECount.
    destruct (find _ _) as [x|] eqn:E; [|reflexivity]. exfalso. apply find_some in E as [Hin E]. unfold bad_cel in E.
    apply in_flat_map in Hin as (fr' & Hfr' & Hin). apply In_nth_error in Hfr' as [k Hk]. cbn [overlaid rw_frames] in Hk. rewrite over_nth in Hk.
    rewrite Forall_forall in HC, HC2.
    destruct (nth_error (rw_frames raw) k) as [fr|] eqn:E1; [|discriminate]. apply nth_error_In in E1.
    destruct (nth_error (rw_frames raw2) k) as [gr|] eqn:E2; [apply nth_error_In in E2|].
    - injection Hk as <-. cbn [rf_chunks] in Hin. rewrite both_cels in Hin. apply in_app_iff in Hin as [Hin|Hin].
      + assert (cc_layer_index x < n) by (apply HC; apply in_flat_map; eauto). lia.
      + apply in_map_iff in Hin as (y & <- & Hin). assert (cc_layer_index y < m) by (apply HC2; apply in_flat_map; eauto).
        unfold up in E. cbn [cel_with lifted_cel cc_layer_index] in E. fold n in E. lia.
    - injection Hk as <-. assert (cc_layer_index x < n) by (apply HC; apply in_flat_map; eauto). lia. }
  pose proof (parsed_wf c _ _ Hc Hi' Haw' Hp') as W'.
  pose proof (parsed_wf c i _ Hc Hi Ha (loaded_parse c i s Hl)) as W. pose proof (parsed_wf c i2 _ Hc Hi2 Ha2 (loaded_parse c i2 s2 Hl2)) as W2.
  remember (f_frames (af_file s)) as fs eqn:Efs. remember (f_frames (af_file s2)) as gs eqn:Egs. remember (f_frames (file_of (overlaid raw raw2) pal)) as fs' eqn:Efs'.
  assert (Hwide : forall k fr, nth_error fs k = Some fr -> length (fr_cels fr) = Z.to_nat n).
  { intros k fr Hk. rewrite Efs, HF in Hk. cbn [file_of f_frames] in Hk. rewrite nth_error_map in Hk. destruct (nth_error (rw_frames raw) k); [|discriminate].
    injection Hk as <-. cbn [fr_cels]. unfold slots. now rewrite map_length, zrange_length. }
  assert (EF : forall k fr gr, nth_error fs k = Some fr -> nth_error gs k = Some gr -> nth_error fs' k = Some (over_frame n fr gr)).
  { intros k fr gr Hk Hg. rewrite Efs' . rewrite Efs, HF in Hk. rewrite Egs, HF2 in Hg. cbn [file_of f_frames] in *. rewrite nth_error_map in *.
    cbn [overlaid rw_frames]. rewrite over_nth. destruct (nth_error (rw_frames raw) k) as [fr0|] eqn:E1; [|discriminate]. destruct (nth_error (rw_frames raw2) k) as [gr0|] eqn:E2; [|discriminate].
    injection Hk as <-. injection Hg as <-. cbn [option_map]. unfold over_frame. cbn [rf_duration rf_chunks fr_duration fr_cels]. fold n. rewrite ECount, both_cels.
    apply nth_error_In in E1, E2. rewrite over_slots; [reflexivity|exact N0|exact M0| |].
    - rewrite Forall_forall in *. intros x Hx. apply HC. apply in_flat_map. eauto.
    - rewrite Forall_forall in *. intros x Hx. apply HB. apply in_flat_map. eauto. }
  assert (Lens : length fs = length gs) by (unfold api_frames in HLen; congruence).
  assert (Other : forall k fr, nth_error fs k = Some fr -> exists gr, nth_error gs k = Some gr).
  { intros k fr Hk. destruct (nth_error gs k) eqn:E; [eauto|]. apply nth_error_None in E. assert (k < length fs)%nat by (apply nth_error_Some; congruence). lia. }
  assert (Other2 : forall k gr, nth_error gs k = Some gr -> exists fr, nth_error fs k = Some fr).
  { intros k fr Hk. destruct (nth_error fs k) eqn:E; [eauto|]. apply nth_error_None in E. assert (k < length gs)%nat by (apply nth_error_Some; congruence). lia. }
  assert (Lens' : length fs' = length fs) by (rewrite Efs', Efs, HF; cbn [file_of f_frames overlaid rw_frames]; now rewrite !map_length, over_length).
  assert (Left : forall k fr x, nth_error fs k = Some fr -> In x (filled fr) -> exists im, picture fs x im /\ picture fs' x im).
  { intros k fr x Hk Hx. rewrite Efs in Hk. destruct (loaded_pictures c i s k fr x Hc Hi Ha Hl Hk Hx) as [im Him]. rewrite <- Efs in Him. exists im. split; [exact Him|].
    destruct Him as [H|(p & P0 & P1 & P2)]; [left; exact H|right]. exists p. split; [exact P0|]. split; [exact P1|].
    unfold image_at in *. destruct (nth_error fs (Z.to_nat p)) as [f0|] eqn:E0; [|discriminate]. destruct (Other _ _ E0) as [g0 Eg].
    rewrite (EF _ _ _ E0 Eg). cbn [over_frame fr_cels]. destruct (nth_error (fr_cels f0) _) as [o|] eqn:E1; [|discriminate].
    rewrite nth_error_app1, E1 by (apply nth_error_Some; congruence). exact P2. }
  assert (Right : forall k gr x, nth_error gs k = Some gr -> In x (filled gr) -> 0 <= cc_layer_index x /\ exists im, picture gs x im /\ picture fs' (up n x) im).
  { intros k gr x Hk Hx. rewrite Egs in Hk. destruct (loaded_pictures c i2 s2 k gr x Hc Hi2 Ha2 Hl2 Hk Hx) as [im Him]. rewrite <- Egs in Him, Hk.
    assert (X0 : 0 <= cc_layer_index x).
    { apply filled_in in Hx as [j Hj]. rewrite Forall_forall in W2. rewrite (W2 gr (nth_error_In _ _ Hk) j x Hj). lia. }
    split; [exact X0|]. exists im. split; [exact Him|].
    destruct Him as [H|(p & P0 & P1 & P2)]; [left; exact H|right]. exists p. split; [exact P0|]. split; [exact P1|].
    unfold image_at in *. destruct (nth_error gs (Z.to_nat p)) as [g0|] eqn:E0; [|discriminate]. destruct (Other2 _ _ E0) as [f0 Ef].
    rewrite (EF _ _ _ Ef E0). cbn [over_frame fr_cels]. change (cc_layer_index (up n x)) with (cc_layer_index x + n).
    rewrite nth_error_app2 by (rewrite (Hwide _ _ Ef); lia). rewrite (Hwide _ _ Ef).
    replace (Z.to_nat (cc_layer_index x + n) - Z.to_nat n)%nat with (Z.to_nat (cc_layer_index x)) by lia. rewrite nth_error_map.
    destruct (nth_error (fr_cels g0) _) as [[y|]|]; try discriminate P2. cbn [option_map]. exact P2. }
  rewrite Efs' in W'. destruct (pictured_loads c _ _ Hp' W') as [s' Hl'].
  { rewrite <- Efs'. intros j fr' y Hj Hy. destruct (nth_error fs j) as [fr|] eqn:E1.
    2: { apply nth_error_None in E1. assert (j < length fs')%nat by (apply nth_error_Some; congruence). lia. }
    destruct (Other _ _ E1) as [gr E2]. rewrite (EF _ _ _ E1 E2) in Hj. injection Hj as <-. rewrite over_filled in Hy. apply in_app_iff in Hy as [Hy|Hy].
    - destruct (Left _ _ _ E1 Hy) as (im & _ & H). eauto.
    - apply in_map_iff in Hy as (x & <- & Hx). destruct (Right _ _ _ E2 Hx) as (_ & im & _ & H). eauto. }
  rewrite <- Efs' in W'. pose proof (build_sprite_ok _ _ (loaded_build c _ s' Hl')) as (_ & L' & T' & I' & FR').
  assert (F' : af_file s' = file_of (overlaid raw raw2) pal) by (pose proof (loaded_parse c _ s' Hl'); congruence).
  apply Forall2_length in FR'. rewrite numbered_length in FR'. rewrite F', <- Efs' in FR'.
  assert (EFs : f_frames (af_file s') = fs') by now rewrite F'. rewrite EFs in I'.
  assert (Lay : af_layers s' = af_layers s ++ af_layers s2).
  { rewrite L, L2, L', F', HF, HF2. cbn [file_of f_layers]. rewrite EL. unfold build_layers. rewrite filter_app, map_app. f_equal. clear.
    induction (spec_all_layers raw2) as [|l ls IH]; [reflexivity|]. cbn [map filter]. change (keep_layer (bare l)) with (keep_layer l).
    destruct (keep_layer l); [|exact IH]. cbn [map]. rewrite IH. reflexivity. }
  assert (En : n = Z.of_nat (length (af_layers s))).
  { unfold api_layers in HKept. rewrite HKept, HF. reflexivity. }
  exists s'. split; [exact Hl'|]. split; [unfold api_size; rewrite F', HF; reflexivity|]. split; [exact Lay|]. split.
  { unfold api_tags. rewrite T, T', F', HF. cbn [file_of f_tags overlaid rw_frames]. rewrite (over_flat spec_tags); [reflexivity|]. intros. apply both_tags. }
  split.
  { unfold api_slices. rewrite F', HF. cbn [file_of f_slices overlaid rw_frames]. apply (over_flat spec_slices). intros. apply both_slices. }
  split; [unfold api_frames; congruence|].
  assert (Can : same_canvas s s') by (unfold same_canvas, canvas_width, canvas_height; rewrite F', HF; cbn [file_of f_header overlaid rw_header]; auto).
  assert (Can2 : same_canvas s2 s').
  { unfold same_canvas, canvas_width, canvas_height in *. rewrite HF in Hw, Hh, Hd. rewrite F'. cbn [file_of f_header overlaid rw_header] in *. auto. }
  assert (Pal : f_palette (af_file s) = f_palette (af_file s')) by (rewrite F', HF; reflexivity).
  assert (Pal2 : f_palette (af_file s2) = f_palette (af_file s')) by congruence.
  intros k sf Hk. destruct (loaded_frame c i s Hl k sf Hk) as (fr & Hfr & D & _ & S1). rewrite <- Efs in Hfr, S1.
  destruct (Other _ _ Hfr) as [gr Hgr]. pose proof (EF _ _ _ Hfr Hgr) as Hfr'.
  pose proof Hgr as Hgr0. rewrite Egs in Hgr0. destruct (loaded_frame' c i2 s2 Hl2 k gr Hgr0) as (sg & Hkg & _ & _ & S2). rewrite <- Egs in S2.
  pose proof Hfr' as Hfr0. rewrite <- EFs in Hfr0. destruct (loaded_frame' c _ s' Hl' k _ Hfr0) as (sf' & Hk' & D' & _ & S').
  exists sf'. split; [exact Hk'|]. split; [rewrite D', D; reflexivity|]. intros inflate t sel sel2 sel' [C1 C2].
  rewrite over_filled in S'. apply Forall2_app_inv_l in S' as (a & b & Sa & Sb & Eab).
  pose proof (frame_cels_ok c _ s' Hc Hi' Haw' Hl' k sf' Hk') as Ok'. rewrite Eab in Ok'. apply Forall_app in Ok' as [Oka Okb].
  assert (Sha : shown s sel (sf_cels sf) = shown s' sel' a).
  { apply (shown_alike s s' sel sel' k fr (over_frame n fr gr)) with (xs := filled fr) (ys := filled fr); try (rewrite ?EFs, <- ?Efs; assumption); auto.
    - intros y Hy. rewrite over_filled. apply in_or_app. now left.
    - assert (G : forall x, In x (filled fr) -> seen_alike s s' sel sel' x x).
      { intros x Hx. split; [reflexivity|]. split; [reflexivity|]. split; [rewrite EFs, <- Efs; eauto|]. intros fc fc' Y Y'. unfold drawn. rewrite Y, Y', Lay.
        apply filled_in in Hx as [j Hj]. rewrite Forall_forall in W. rewrite (W fr (nth_error_In _ _ Hfr) j x Hj), Nat2Z.id.
        assert (Hj' : (j < length (af_layers s))%nat) by (apply Nat2Z.inj_lt; rewrite <- En; pose proof (Hwide _ _ Hfr); assert (j < length (fr_cels fr))%nat by (apply nth_error_Some; congruence); lia).
        rewrite nth_error_app1 by exact Hj'. destruct (nth_error (af_layers s) j) as [l|] eqn:El; [|reflexivity]. now rewrite (C1 j l El). }
      clear - G. induction (filled fr) as [|x l IH]; constructor; [apply G; now left|]. apply IH. intros y Hy. apply G. now right. }
  assert (Shb : shown s2 sel2 (sf_cels sg) = shown s' sel' b).
  { apply (shown_alike s2 s' sel2 sel' k gr (over_frame n fr gr)) with (xs := filled gr) (ys := map (up n) (filled gr)); try (rewrite ?EFs, <- ?Egs; assumption); auto.
    - intros y Hy. rewrite over_filled. apply in_or_app. now right.
    - assert (G : forall x, In x (filled gr) -> seen_alike s2 s' sel2 sel' x (up n x)).
      { intros x Hx. split; [reflexivity|]. split; [reflexivity|]. destruct (Right _ _ _ Hgr Hx) as [X0 X1]. split; [rewrite EFs, <- Egs; exact X1|].
        intros fc fc' Y Y'. unfold drawn. rewrite Y, Y', Lay. unfold up. cbn [cel_with lifted_cel cc_layer_index].
        rewrite nth_error_app2 by lia. replace (Z.to_nat (cc_layer_index x + n) - length (af_layers s))%nat with (Z.to_nat (cc_layer_index x)) by lia.
        destruct (nth_error (af_layers s2) (Z.to_nat (cc_layer_index x))) as [l|] eqn:El; [|reflexivity]. pose proof (C2 _ _ El) as C3. unfold api_layers in C3.
        replace (Z.of_nat (length (af_layers s) + Z.to_nat (cc_layer_index x))) with (cc_layer_index x + n) in C3 by lia. rewrite C3, Z2Nat.id by lia. reflexivity. }
      clear - G. induction (filled gr) as [|x l IH]; constructor; [apply G; now left|]. apply IH. intros y Hy. apply G. now right. }
  pose proof Can as (K1 & K2 & _). pose proof Can2 as (K3 & K4 & _). unfold canvas_width, canvas_height in K1, K2, K3, K4.
  unfold render_frame. rewrite K1, K2, K3, K4.
  destruct (usizec c _) as [z1| |]; cbn [bind]; try reflexivity. destruct (usizec c (z1 * 4)) as [z2| |]; cbn [bind]; try reflexivity.
  destruct (Z.ltb_spec (zlen t) z2) as [|Hz]; [reflexivity|].
  rewrite (get_index_ok (af_frames s) (Z.of_nat k) sf) by (rewrite ?Nat2Z.id; (assumption || lia)).
  rewrite (get_index_ok (af_frames s') (Z.of_nat k) sf') by (rewrite ?Nat2Z.id; (assumption || lia)). cbn [bind].
  rewrite Eab, fold_out_app. rewrite <- (fold_shown c inflate s s' sel sel' Can Pal (sf_cels sf) a (frame_cels_ok c i s Hc Hi Ha Hl k sf Hk) Oka Sha t).
  destruct (fold_out _ (sf_cels sf) t) as [r| |] eqn:ER; cbn [bind]; try reflexivity.
  assert (zlen r = zlen t) as EZ by (eapply fold_keeps; [|exact ER]; intros; eapply render_cel_keeps; eassumption).
  rewrite EZ. destruct (Z.ltb_spec (zlen t) z2); [lia|].
  rewrite (get_index_ok (af_frames s2) (Z.of_nat k) sg) by (rewrite ?Nat2Z.id; (assumption || lia)). cbn [bind].
  symmetry. apply (fold_shown c inflate s2 s' sel2 sel' Can2 Pal2 (sf_cels sg) b (frame_cels_ok c i2 s2 Hc Hi2 Ha2 Hl2 k sg Hkg) Okb Shb r).
Qed.

(** Selections *)
Lemma both_all a b : chooses_both a b SelAll SelAll SelAll.
Proof. split; reflexivity. Qed.
Lemma both_visible a b : chooses_both a b SelVisible SelVisible SelVisible.
Proof. split; reflexivity. Qed.
Lemma both_masks a b mask mask2 : length mask = length a -> chooses_both a b (SelMask mask) (SelMask mask2) (SelMask (mask ++ mask2)).
Proof.
  intro E. split; intros j l H; cbn [chosen]; rewrite !Nat2Z.id.
  - rewrite nth_error_app1; [reflexivity|]. rewrite E. apply nth_error_Some. congruence.
  - rewrite nth_error_app2 by lia. now replace (length a + j - length mask)%nat with j by lia.
Qed.
Lemma both_ways a b : chooses_both a b SelAll SelAll SelAll /\ chooses_both a b SelVisible SelVisible SelVisible /\
  forall mask mask2, length mask = length a -> chooses_both a b (SelMask mask) (SelMask mask2) (SelMask (mask ++ mask2)).
Proof. split; [apply both_all|]. split; [apply both_visible|]. apply both_masks. Qed.
