(** A sprite made of the frames of another one (C128). *)
From Verif.Model Require Import Loader.
From Verif.Spec Require Import Bytes Format FileSpec LoaderSpec ImageSpec BlendSpec RenderSpec Published Edits Taken.
From Verif.Proofs Require Import ParseLib FileFacts FileProps LoaderFacts LoaderProps RenderFacts RenderProps PublishedProps EditFacts EditProps.

Lemma picture_resolved fs x im : picture fs x im -> resolved fs x = Some im.
Proof. unfold resolved. intros [->|(p & _ & -> & H)]; [reflexivity|exact H]. Qed.

Lemma taken_filled src fs fs' j fr' : taken src fs fs' -> nth_error fs' j = Some fr' ->
  exists fr, nth_error fs (src j) = Some fr /\ fr_duration fr' = fr_duration fr /\ Forall2 (alike fs fs') (filled fr) (filled fr').
Proof.
  intros HF Hj. destruct (HF j fr' Hj) as (fr & Hfr & Hd & HS). exists fr. split; [exact Hfr|]. split; [exact Hd|].
  unfold filled. clear - HS. induction HS as [|o o' l l' Ho HS IH]; [constructor|].
  destruct o as [x|], o' as [y|]; try contradiction; cbn [flat_map app]; [|exact IH]. constructor; [exact Ho|exact IH].
Qed.

Lemma taken_problems src fs fs' : Forall wf_frame fs' -> taken src fs fs' -> problems fs' = [].
Proof.
  intros Hw HF. unfold problems. rewrite flat_map_nil. intros [k y] Hy.
  apply file_cels_in in Hy as (H0 & fr' & Hfr' & Hy).
  destruct (taken_filled _ _ _ _ _ HF Hfr') as (fr & _ & _ & HS).
  destruct (Forall2_in_r _ _ _ _ HS Hy) as (x & _ & _ & _ & _ & im & _ & Hp).
  unfold cel_problem. destruct Hp as [->|(p & P0 & -> & P)]; [reflexivity|].
  replace (existsb _ (image_cels fs')) with true; [reflexivity|]. symmetry.
  apply (existsb_key (image_cels fs') (p, cc_layer_index y)). exists im. apply image_cels_at; [exact Hw|].
  split; [exact P0|]. split; [|exact P]. apply filled_in in Hy as [n Hn].
  rewrite Forall_forall in Hw. rewrite (Hw fr' (nth_error_In _ _ Hfr') n y Hn). lia.
Qed.

Lemma frames_taken c i i' s f' src : cfg_ok c -> is_bytes i -> addressable c i -> is_bytes i' -> addressable c i' ->
  load c i = Ok s -> parse_file c i' = Ok f' ->
  same_picture_header (f_header (af_file s)) (f_header f') ->
  f_palette (af_file s) = f_palette f' -> f_layers (af_file s) = f_layers f' ->
  taken src (f_frames (af_file s)) (f_frames f') ->
  exists s', load c i' = Ok s' /\ af_file s' = f' /\ api_layers s' = api_layers s /\
    length (api_frames s') = length (f_frames f') /\
    forall j sf', nth_error (api_frames s') j = Some sf' -> exists sf, nth_error (api_frames s) (src j) = Some sf /\
      sf_duration sf' = sf_duration sf /\
      forall inflate target sel, render_frame c inflate s' (Z.of_nat j) target sel = render_frame c inflate s (Z.of_nat (src j)) target sel.
Proof.
  intros Hc Hi Ha Hi' Ha' Hl Hp' (Hw & Hh & Hd & _) Hpal Hly HF.
  pose proof (loaded_parse c i s Hl) as Hp. pose proof (loaded_build c i s Hl) as Hb.
  pose proof (parsed_wf c i _ Hc Hi Ha Hp) as W. pose proof (parsed_wf c i' _ Hc Hi' Ha' Hp') as W'.
  pose proof (build_sprite_outcome f') as HO. rewrite (taken_problems _ _ _ W' HF) in HO. destruct HO as [s' Hs'].
  assert (Hl' : load c i' = Ok s') by (unfold load; rewrite Hp'; exact Hs').
  pose proof (build_sprite_ok _ _ Hb) as (_ & L & _ & I & FR). pose proof (build_sprite_ok _ _ Hs') as (F' & L' & _ & I' & FR').
  assert (EL : af_layers s = af_layers s') by (rewrite L, L', Hly; reflexivity).
  exists s'. split; [exact Hl'|]. split; [exact F'|]. split; [symmetry; exact EL|]. split.
  { pose proof (Forall2_length _ _ _ FR') as E2. rewrite numbered_length in E2. symmetry. exact E2. }
  intros j sf' Hj. destruct (loaded_frame c i' s' Hl' j sf' Hj) as (fr' & Hfr' & D2 & _ & S2). rewrite F' in Hfr', S2.
  destruct (taken_filled _ _ _ _ _ HF Hfr') as (fr & Hfr & D3 & HS).
  assert (Hsf : exists sf, nth_error (af_frames s) (src j) = Some sf).
  { destruct (nth_error (af_frames s) (src j)) eqn:E; [eauto|]. exfalso. apply nth_error_None in E.
    pose proof (Forall2_length _ _ _ FR) as E1. rewrite numbered_length in E1.
    assert (src j < length (f_frames (af_file s)))%nat by (apply nth_error_Some; congruence). lia. }
  destruct Hsf as [sf Hk]. destruct (loaded_frame c i s Hl (src j) sf Hk) as (fr2 & Hfr2 & D1 & _ & S1).
  assert (fr2 = fr) as -> by congruence.
  exists sf. split; [exact Hk|]. split; [congruence|]. intros inflate target sel. symmetry.
  eapply (same_picture c i s i' s'); try eassumption; rewrite ?F'; try assumption.
  { unfold same_canvas, canvas_width, canvas_height. rewrite F'. auto. }
  assert (G : forall xs ys, (forall x, In x xs -> In x (filled fr)) -> (forall y, In y ys -> In y (filled fr')) ->
    Forall2 (alike (f_frames (af_file s)) (f_frames f')) xs ys ->
    forall a b, Forall2 (shows (f_frames (af_file s)) (Z.of_nat (src j))) xs a -> Forall2 (shows (f_frames f') (Z.of_nat j)) ys b ->
    shown s sel a = shown s' sel b).
  { induction 3 as [|x y xs ys Hxy Hxs IH]; intros a b Ha1 Hb1; inversion Ha1 as [|? fc ? ? Hfc Ha2]; inversion Hb1 as [|? fc' ? ? Hfc' Hb2]; subst; [reflexivity|].
    cbn [shown flat_map]. unfold shown in IH. rewrite (IH) with (a := l') (b := l'0); try assumption; [|intros; apply H; now right|intros; apply H0; now right].
    unfold shown. cbn [flat_map]. f_equal.
    destruct (shows_resolved _ (src j) fr x fc W Hfr (H x (or_introl eq_refl)) Hfc) as (im & N1 & R1 & Z1).
    destruct (shows_resolved _ j fr' y fc' W' Hfr' (H0 y (or_introl eq_refl)) Hfc') as (im' & N2 & R2 & Z2).
    destruct Hxy as (E1 & E2 & E3 & im2 & P1 & P2). apply picture_resolved in P1, P2.
    assert (im = im2) as -> by congruence. assert (im' = im2) as -> by congruence.
    destruct Hfc as (O1 & Y1 & _). destruct Hfc' as (O2 & Y2 & _).
    rewrite (drawn_same s s' sel fc fc' EL) by congruence. destruct (drawn s' sel fc'); [|reflexivity].
    rewrite I, I', N1, N2, Z1, Z2, O1, O2, E2, E3. reflexivity. }
  apply (G _ _ (fun x Hx => Hx) (fun x Hx => Hx) HS _ _ S1 S2).
Qed.
