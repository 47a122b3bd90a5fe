(** Links (C74), moved pictures (C75) and further frames (C76). *)
From Verif.Model Require Import Loader.
From Verif.Spec Require Import Bytes Format FileSpec LoaderSpec ImageSpec BlendSpec RenderSpec Published Edits.
From Verif.Proofs Require Import ParseLib FileFacts FileProps LoaderFacts LoaderProps RenderFacts RenderProps PublishedProps EditFacts.

Lemma Forall2_length {A B} (R : A -> B -> Prop) l l' : Forall2 R l l' -> length l = length l'.
Proof. induction 1; cbn; congruence. Qed.
Lemma map_Forall2' {A B C} (P : A -> B -> Prop) (f : A -> C) (g : B -> C) l l' :
  (forall a b, P a b -> f a = g b) -> Forall2 P l l' -> map f l = map g l'.
Proof. intros H HF. induction HF as [|a b l l' Ha HF IH]; [reflexivity|]. cbn. now rewrite (H _ _ Ha), IH. Qed.

(** ** C74 *)
Definition resolved (fs : list frame) (x : cel_chunk) : option image :=
  match cc_content x with
  | CImage im => Some im
  | CLinked p => image_at fs p (cc_layer_index x)
  | _ => None
  end.

Lemma filled_in fr x : In x (filled fr) <-> exists j, nth_error (fr_cels fr) j = Some (Some x).
Proof.
  unfold filled. rewrite in_flat_map. split.
  - intros (o & Ho & Hx). destruct o as [y|]; [|destruct Hx]. destruct Hx as [->|[]]. now apply In_nth_error.
  - intros [j Hj]. exists (Some x). split; [eapply nth_error_In, Hj|now left].
Qed.
Lemma file_cels_in fs k x : In (k, x) (file_cels fs) <->
  0 <= k /\ exists fr, nth_error fs (Z.to_nat k) = Some fr /\ In x (filled fr).
Proof.
  unfold file_cels. rewrite in_flat_map. split.
  - intros ([k' fr] & Hfr & Hin). apply in_map_iff in Hin as (x' & [= -> ->] & Hin).
    apply numbered_in in Hfr as [H0 Hfr]. rewrite Z.sub_0_r in Hfr. eauto.
  - intros (H0 & fr & Hfr & Hx). exists (k, fr). split; [|apply in_map_iff; eauto].
    apply numbered_in. now rewrite Z.sub_0_r.
Qed.
Lemma image_cels_at fs p l im : Forall wf_frame fs ->
  (In ((p, l), im) (image_cels fs) <-> 0 <= p /\ 0 <= l /\ image_at fs p l = Some im).
Proof.
  intro Hw. unfold image_cels. rewrite in_flat_map. split.
  - intros ([k x] & Hin & Hx). destruct (cc_content x) eqn:Ec; try contradiction. destruct Hx as [[= -> <- ->]|[]].
    apply file_cels_in in Hin as (H0 & fr & Hfr & Hx). apply filled_in in Hx as [j Hj].
    rewrite Forall_forall in Hw. pose proof (Hw fr (nth_error_In _ _ Hfr) j x Hj) as El.
    split; [exact H0|]. split; [lia|]. unfold image_at. rewrite Hfr, El, Nat2Z.id, Hj, Ec. reflexivity.
  - intros (H0 & H1 & H). unfold image_at in H. destruct (nth_error fs (Z.to_nat p)) as [fr|] eqn:Hfr; [|discriminate].
    destruct (nth_error (fr_cels fr) (Z.to_nat l)) as [[x|]|] eqn:Hl; try discriminate.
    destruct (cc_content x) eqn:Ec; try discriminate. injection H as ->. exists (p, x). split.
    + apply file_cels_in. split; [exact H0|]. exists fr. split; [exact Hfr|]. apply filled_in. eauto.
    + rewrite Ec. left. rewrite Forall_forall in Hw. rewrite (Hw fr (nth_error_In _ _ Hfr) _ x Hl), Z2Nat.id by exact H1. reflexivity.
Qed.

Lemma shows_resolved fs k fr x fc : Forall wf_frame fs -> nth_error fs k = Some fr -> In x (filled fr) ->
  shows fs (Z.of_nat k) x fc ->
  exists im, nth_error (map snd (image_cels fs)) (Z.to_nat (fc_image_index fc)) = Some im /\ resolved fs x = Some im /\
    fc_size fc = (im_width im, im_height im).
Proof.
  intros Hw Hfr Hx (_ & _ & _ & p & im & Hp & Hn & Hs). exists im.
  split; [eapply nth_images, Hn|]. split; [|exact Hs].
  pose proof (proj1 (image_cels_at fs p _ im Hw) (nth_error_In _ _ Hn)) as (H0 & H1 & Hat).
  unfold source_frame in Hp. unfold resolved. destruct (cc_content x) eqn:Ec; try discriminate.
  - injection Hp as <-. unfold image_at in Hat. rewrite Nat2Z.id, Hfr in Hat.
    apply filled_in in Hx as [j Hj]. rewrite Forall_forall in Hw.
    rewrite (Hw fr (nth_error_In _ _ Hfr) j x Hj), Nat2Z.id, Hj, Ec in Hat. congruence.
  - injection Hp as <-. exact Hat.
Qed.

Lemma unlinked_slot fs fs' k fr : unlinked_frames fs fs' -> nth_error fs k = Some fr ->
  exists fr', nth_error fs' k = Some fr' /\ fr_duration fr = fr_duration fr' /\
    Forall2 (unlinked fs) (filled fr) (filled fr') /\
    (forall j x, nth_error (fr_cels fr) j = Some (Some x) -> exists y, nth_error (fr_cels fr') j = Some (Some y) /\ unlinked fs x y).
Proof.
  intros HF Hk. destruct (Forall2_nth _ _ _ _ _ HF Hk) as (fr' & Hk' & Hd & HS).
  exists fr'. split; [exact Hk'|]. split; [exact Hd|]. split.
  - unfold filled. induction HS as [|o o' l l' Ho HS IH]; [constructor|].
    destruct o as [x|], o' as [y|]; try contradiction; cbn [flat_map app]; [|exact IH]. constructor; [exact Ho|exact IH].
  - intros j x Hj. destruct (Forall2_nth _ _ _ _ _ HS Hj) as (o & Ho & H). destruct o as [y|]; [eauto|contradiction].
Qed.
Lemma unlinked_image_at fs fs' p l im : unlinked_frames fs fs' -> image_at fs p l = Some im -> image_at fs' p l = Some im.
Proof.
  intros HF H. unfold image_at in *. destruct (nth_error fs (Z.to_nat p)) as [fr|] eqn:Hfr; [|discriminate].
  destruct (unlinked_slot fs fs' _ fr HF Hfr) as (fr' & -> & _ & _ & G).
  destruct (nth_error (fr_cels fr) (Z.to_nat l)) as [[x|]|] eqn:Hl; try discriminate.
  destruct (G _ x Hl) as (y & -> & _ & _ & _ & Hu). destruct (cc_content x) eqn:Ec; try discriminate. injection H as ->.
  destruct Hu as [->|(q & im' & Hq & _)]; [reflexivity|discriminate].
Qed.
Lemma unlinked_resolved fs fs' x y im : unlinked_frames fs fs' -> unlinked fs x y -> resolved fs x = Some im -> resolved fs' y = Some im.
Proof.
  intros HF (Hl & _ & _ & Hu) H. unfold resolved in *. destruct Hu as [E|(p & im' & Ep & Hat & Ey)].
  - rewrite E, Hl. destruct (cc_content x); try discriminate; [exact H|]. eapply unlinked_image_at; eassumption.
  - rewrite Ey. rewrite Ep in H. congruence.
Qed.

Lemma cel_problem_none fs k x : Forall wf_frame fs -> cel_problem fs (k, x) = [] ->
  exists im, resolved fs x = Some im.
Proof.
  intros Hw. unfold cel_problem, resolved. destruct (cc_content x); try discriminate; [eauto|].
  destruct (existsb _ _) eqn:E; [|discriminate]. intros _.
  apply (existsb_key (image_cels fs) (frame_position, cc_layer_index x)) in E as [im Hin].
  apply image_cels_at in Hin as (_ & _ & ->); eauto.
Qed.
Lemma flat_map_nil {A B} (f : A -> list B) l : flat_map f l = [] <-> forall a, In a l -> f a = [].
Proof.
  induction l as [|a l IH]; cbn; [split; [intros _ ? []|reflexivity]|]. split.
  - intro H. apply app_eq_nil in H as [H1 H2]. intros b [<-|Hb]; [exact H1|]. now apply IH.
  - intro H. rewrite (H a) by now left. apply IH. intros b Hb. apply H. now right.
Qed.
Lemma unlinked_problems fs fs' : Forall wf_frame fs -> Forall wf_frame fs' ->
  unlinked_frames fs fs' -> problems fs = [] -> problems fs' = [].
Proof.
  intros Hw Hw' HF H. unfold problems in *. rewrite flat_map_nil in *. intros [k y] Hy.
  apply file_cels_in in Hy as (H0 & fr' & Hfr' & Hy).
  destruct (Forall2_nth_r _ _ _ _ _ HF Hfr') as (fr & Hfr & _).
  destruct (unlinked_slot fs fs' _ fr HF Hfr) as (fr2 & Hfr2 & _ & HS & _). assert (fr2 = fr') as -> by congruence.
  destruct (Forall2_in_r _ _ _ _ HS Hy) as (x & Hx & Hl & _ & _ & Hu).
  assert (Hin : In (k, x) (file_cels fs)) by (apply file_cels_in; eauto).
  specialize (H _ Hin). unfold cel_problem in *. destruct Hu as [->|(p & im & _ & _ & ->)]; [|reflexivity].
  destruct (cc_content x); try reflexivity; try discriminate. rewrite Hl.
  destruct (existsb _ (image_cels fs)) eqn:E; [|discriminate].
  apply (existsb_key (image_cels fs) (frame_position, cc_layer_index x)) in E as [im Hin'].
  apply image_cels_at in Hin' as (P0 & P1 & P2); [|exact Hw].
  replace (existsb _ (image_cels fs')) with true; [reflexivity|]. symmetry.
  apply (existsb_key (image_cels fs') (frame_position, cc_layer_index x)). exists im. apply image_cels_at; [exact Hw'|].
  split; [exact P0|]. split; [exact P1|]. eapply unlinked_image_at; eassumption.
Qed.

Lemma drawn_same s s' sel cel cel' : af_layers s = af_layers s' -> fc_layer_index cel = fc_layer_index cel' ->
  drawn s sel cel = drawn s' sel cel'.
Proof. unfold drawn. now intros -> ->. Qed.

Lemma render_no_frame c inflate s k t sel : (k < 0 \/ nth_error (af_frames s) (Z.to_nat k) = None) ->
  render_frame c inflate s k t sel =
  (let* n := usizec c (canvas_width s * canvas_height s) in
   let* n := usizec c (n * 4) in
   if zlen t <? n then Err (TargetBufferTooSmall, t) else Panic PIndex).
Proof.
  intro H. unfold render_frame, canvas_width, canvas_height. destruct (usizec c _) as [n| |]; cbn [bind]; try reflexivity.
  destruct (usizec c _) as [m| |]; cbn [bind]; try reflexivity. destruct (_ <? _); [reflexivity|].
  unfold get_index. destruct (Z.leb_spec 0 k); [|reflexivity]. destruct H as [H| ->]; [lia|reflexivity].
Qed.

(** Frames that show the same, one by one. *)
Lemma same_frames c i s i' s' : cfg_ok c -> is_bytes i -> addressable c i -> load c i = Ok s ->
  is_bytes i' -> addressable c i' -> load c i' = Ok s' ->
  same_canvas s s' -> f_palette (af_file s) = f_palette (af_file s') ->
  forall sel, Forall2 (fun sf sf' => shown s sel (sf_cels sf) = shown s' sel (sf_cels sf')) (api_frames s) (api_frames s') ->
  forall inflate k target, render_frame c inflate s k target sel = render_frame c inflate s' k target sel.
Proof.
  intros Hc Hi Ha Hl Hi' Ha' Hl' Hcan Hp sel HF inflate k t.
  assert (D : (k < 0 \/ nth_error (af_frames s) (Z.to_nat k) = None) \/ exists sf, 0 <= k /\ nth_error (af_frames s) (Z.to_nat k) = Some sf).
  { destruct (Z.ltb_spec k 0); [left; now left|]. destruct (nth_error (af_frames s) (Z.to_nat k)) eqn:E; [right; eauto|left; now right]. }
  destruct D as [D|(sf & H0 & D)].
  - rewrite !render_no_frame; [destruct Hcan as (-> & -> & _); reflexivity| |exact D].
    destruct D as [D|D]; [now left|right]. apply nth_error_None in D. apply nth_error_None.
    apply Forall2_length in HF. unfold api_frames in HF. lia.
  - destruct (Forall2_nth _ _ _ _ _ HF D) as (sf' & D' & HS). rewrite <- (Z2Nat.id k H0).
    exact (same_picture c i s i' s' Hc Hi Ha Hl Hi' Ha' Hl' Hcan Hp sel sel _ sf _ sf' D D' HS inflate t).
Qed.

Lemma links_only_abbreviate c i i' s f' : cfg_ok c -> is_bytes i -> addressable c i -> is_bytes i' -> addressable c i' ->
  load c i = Ok s -> parse_file c i' = Ok f' ->
  same_picture_header (f_header (af_file s)) (f_header f') ->
  f_palette (af_file s) = f_palette f' -> f_layers (af_file s) = f_layers f' ->
  unlinked_frames (f_frames (af_file s)) (f_frames f') ->
  exists s', load c i' = Ok s' /\ af_file s' = f' /\ api_layers s' = api_layers s /\
    map sf_duration (api_frames s') = map sf_duration (api_frames s) /\
    forall inflate k target sel, render_frame c inflate s k target sel = render_frame c inflate s' k target sel.
Proof.
  intros Hc Hi Ha Hi' Ha' Hl Hp' (Hw & Hh & Hd & _) Hpal Hly HF.
  pose proof (loaded_parse c i s Hl) as Hp. pose proof (loaded_build c i s Hl) as Hb.
  pose proof (parsed_wf c i _ Hc Hi Ha Hp) as W. pose proof (parsed_wf c i' _ Hc Hi' Ha' Hp') as W'.
  assert (P : problems (f_frames (af_file s)) = []).
  { pose proof (build_sprite_outcome (af_file s)) as H. destruct (problems _); [reflexivity|]. congruence. }
  pose proof (build_sprite_outcome f') as HO. rewrite (unlinked_problems _ _ W W' HF P) in HO. destruct HO as [s' Hs'].
  assert (Hl' : load c i' = Ok s') by (unfold load; rewrite Hp'; exact Hs').
  pose proof (build_sprite_ok _ _ Hb) as (_ & L & _ & I & FR). pose proof (build_sprite_ok _ _ Hs') as (F' & L' & _ & I' & FR').
  assert (EL : af_layers s = af_layers s') by (rewrite L, L', Hly; reflexivity).
  assert (Nth : forall k sf sf', nth_error (af_frames s) k = Some sf -> nth_error (af_frames s') k = Some sf' ->
    sf_duration sf' = sf_duration sf /\ forall sel, shown s sel (sf_cels sf) = shown s' sel (sf_cels sf')).
  { intros k sf sf' Hk Hk'. destruct (loaded_frame c i s Hl k sf Hk) as (fr & Hfr & D1 & _ & S1).
    destruct (loaded_frame c i' s' Hl' k sf' Hk') as (fr' & Hfr' & D2 & _ & S2). rewrite F' in Hfr', S2.
    destruct (unlinked_slot _ _ _ fr HF Hfr) as (fr2 & Hfr2 & D3 & HS & _). assert (fr2 = fr') as -> by congruence.
    split; [congruence|]. intro sel. unfold shown.
    assert (G : forall xs ys, (forall x, In x xs -> In x (filled fr)) -> (forall y, In y ys -> In y (filled fr')) ->
      Forall2 (unlinked (f_frames (af_file s))) xs ys ->
      forall a b, Forall2 (shows (f_frames (af_file s)) (Z.of_nat k)) xs a -> Forall2 (shows (f_frames f') (Z.of_nat k)) ys b ->
      shown s sel a = shown s' sel b).
    { induction 3 as [|x y xs ys Hxy Hxs IH]; intros a b Ha1 Hb1; inversion Ha1 as [|? fc ? ? Hfc Ha2]; inversion Hb1 as [|? fc' ? ? Hfc' Hb2]; subst; [reflexivity|].
      cbn [shown flat_map]. unfold shown in IH. rewrite (IH) with (a := l') (b := l'0); try assumption; [|intros; apply H; now right|intros; apply H0; now right]. f_equal.
      destruct (shows_resolved _ k fr x fc W Hfr (H x (or_introl eq_refl)) Hfc) as (im & N1 & R1 & Z1).
      destruct (shows_resolved _ k fr' y fc' W' Hfr' (H0 y (or_introl eq_refl)) Hfc') as (im' & N2 & R2 & Z2).
      pose proof (unlinked_resolved _ _ x y im HF Hxy R1) as R3. assert (im' = im) as -> by congruence.
      destruct Hfc as (O1 & Y1 & _). destruct Hfc' as (O2 & Y2 & _). destruct Hxy as (E1 & E2 & E3 & _).
      rewrite (drawn_same s s' sel fc fc' EL) by congruence. destruct (drawn s' sel fc'); [|reflexivity].
      rewrite I, I', N1, N2, Z1, Z2, O1, O2, E2, E3. reflexivity. }
    apply (G _ _ (fun x Hx => Hx) (fun x Hx => Hx) HS _ _ S1 S2). }
  assert (Len : length (af_frames s) = length (af_frames s')).
  { pose proof (Forall2_length _ _ _ FR) as E1. pose proof (Forall2_length _ _ _ FR') as E2. rewrite numbered_length in *.
    pose proof (Forall2_length _ _ _ HF). congruence. }
  assert (All : forall R : sframe -> sframe -> Prop, (forall k sf sf', nth_error (af_frames s) k = Some sf -> nth_error (af_frames s') k = Some sf' -> R sf sf') ->
    Forall2 R (af_frames s) (af_frames s')).
  { intros R. revert Len. generalize (af_frames s), (af_frames s'). clear. induction l as [|a l IH]; intros [|b l'] Len H; try discriminate; constructor.
    - apply (H O); reflexivity.
    - apply IH; [now injection Len|]. intros k sf sf' H1 H2. apply (H (S k)); assumption. }
  exists s'. split; [exact Hl'|]. split; [exact F'|]. split; [symmetry; exact EL|]. split.
  - symmetry. eapply map_Forall2'. 2: apply All, Nth. intros a b [H _]. symmetry; exact H.
  - intros inflate k t sel. eapply (same_frames c i s i' s'); try eassumption; rewrite ?F'; try assumption.
    + unfold same_canvas, canvas_width, canvas_height. rewrite F'. auto.
    + apply All. intros k' sf sf' H1 H2. now apply (Nth k').
Qed.

(** ** C75 *)
Lemma shown_nil s sel cels : shown s sel cels = [] -> Forall (fun cel => drawn s sel cel = None) cels.
Proof.
  induction cels as [|cel cels IH]; cbn [shown flat_map]; [constructor|].
  destruct (drawn s sel cel) eqn:E; [discriminate|]. intro H. constructor; [exact E|now apply IH].
Qed.
Lemma shown_cons s sel cels e rest : shown s sel cels = e :: rest ->
  exists pre cel cels1 l, cels = pre ++ cel :: cels1 /\ Forall (fun cel => drawn s sel cel = None) pre /\
    drawn s sel cel = Some l /\ shown s sel cels1 = rest /\
    e = (fc_origin cel, fc_size cel, nth_error (af_images s) (Z.to_nat (fc_image_index cel)), ly_blend_mode l, ly_opacity l).
Proof.
  induction cels as [|cel cels IH]; cbn [shown flat_map]; [discriminate|].
  destruct (drawn s sel cel) as [l|] eqn:E.
  - intros [= <- H]. exists [], cel, cels, l. auto using Forall_nil.
  - intro H. destruct (IH H) as (pre & cel1 & cels1 & l & -> & H1 & H2). exists (cel :: pre), cel1, cels1, l.
    split; [reflexivity|]. split; [now constructor|exact H2].
Qed.
Lemma composed_pre c inflate s sel x y pre cels back p : Forall (fun cel => drawn s sel cel = None) pre ->
  composed c inflate s sel x y cels back p -> composed c inflate s sel x y (pre ++ cels) back p.
Proof. intros H Hp. induction H as [|cel pre Hc H IH]; [exact Hp|]. cbn. apply composed_skip; auto. Qed.

Lemma covers_moved cel cel' dx dy x y : fc_origin cel' = (fst (fc_origin cel) + dx, snd (fc_origin cel) + dy) ->
  fc_size cel' = fc_size cel -> covers cel' (x + dx) (y + dy) = covers cel x y.
Proof.
  unfold covers. intros -> ->. destruct (fc_origin cel) as [ox oy], (fc_size cel) as [w h]. cbn [fst snd].
  replace (ox + dx <=? x + dx) with (ox <=? x) by (destruct (Z.leb_spec ox x), (Z.leb_spec (ox + dx) (x + dx)); lia).
  replace (x + dx <? ox + dx + w) with (x <? ox + w) by (destruct (Z.ltb_spec x (ox + w)), (Z.ltb_spec (x + dx) (ox + dx + w)); lia).
  replace (oy + dy <=? y + dy) with (oy <=? y) by (destruct (Z.leb_spec oy y), (Z.leb_spec (oy + dy) (y + dy)); lia).
  replace (y + dy <? oy + dy + h) with (y <? oy + h) by (destruct (Z.ltb_spec y (oy + h)), (Z.ltb_spec (y + dy) (oy + dy + h)); lia).
  reflexivity.
Qed.

Lemma composed_moved c inflate s s' sel sel' dx dy x y :
  h_color_depth (f_header (af_file s)) = h_color_depth (f_header (af_file s')) ->
  f_palette (af_file s) = f_palette (af_file s') ->
  forall cels back p, composed c inflate s sel x y cels back p ->
  forall cels', shown s' sel' cels' = map (move dx dy) (shown s sel cels) ->
  composed c inflate s' sel' (x + dx) (y + dy) cels' back p.
Proof.
  intros Hd Hp cels back p H. induction H as [back|cel cels back p Hs H IH|cel cels back l image front f mid p Hdr Hcov Him Hpx Hf Hm H IH]; intros cels' E.
  - cbn in E. apply shown_nil in E. rewrite <- (app_nil_r cels'). apply composed_pre; [exact E|constructor].
  - cbn [shown flat_map] in E. destruct (drawn s sel cel) as [l|] eqn:Edr; [|apply IH; exact E].
    destruct Hs as [Hs|Hs]; [discriminate|]. cbn [app map move] in E.
    apply shown_cons in E as (pre & cel' & cels1 & l' & -> & Hpre & Hdr' & Erest & Ee).
    injection Ee as E1 E2 E3 E4 E5. apply composed_pre; [exact Hpre|]. apply composed_skip; [right|apply IH; exact Erest].
    rewrite (covers_moved cel cel' dx dy); [exact Hs|symmetry; exact E1|symmetry; exact E2].
  - cbn [shown flat_map] in E. rewrite Hdr in E. cbn [app map move] in E.
    apply shown_cons in E as (pre & cel' & cels1 & l' & -> & Hpre & Hdr' & Erest & Ee).
    injection Ee as E1 E2 E3 E4 E5. apply composed_pre; [exact Hpre|].
    apply (composed_draw c inflate s' sel' (x + dx) (y + dy) cel' cels1 back l' image front f mid p).
    + exact Hdr'.
    + rewrite (covers_moved cel cel' dx dy); [exact Hcov|symmetry; exact E1|symmetry; exact E2].
    + destruct Him as (im & Hj & Him). exists im. split; [congruence|]. unfold decoded in *. now rewrite <- Hd, <- Hp.
    + rewrite <- E1, <- E2. cbn [fst snd]. rewrite <- Hpx. f_equal; lia.
    + congruence.
    + congruence.
    + apply IH. exact Erest.
Qed.

Lemma pictures_move c i s i' s' : cfg_ok c -> is_bytes i -> addressable c i -> load c i = Ok s ->
  is_bytes i' -> addressable c i' -> load c i' = Ok s' ->
  h_color_depth (f_header (af_file s)) = h_color_depth (f_header (af_file s')) ->
  f_palette (af_file s) = f_palette (af_file s') ->
  forall inflate, inflate_ok inflate -> sprite_fits c s -> sprite_fits c s' ->
  forall sel sel' k sf k' sf' dx dy, nth_error (api_frames s) k = Some sf -> nth_error (api_frames s') k' = Some sf' ->
  shown s' sel' (sf_cels sf') = map (move dx dy) (shown s sel (sf_cels sf)) ->
  forall target target' r r', is_bytes target -> is_bytes target' ->
  render_frame c inflate s (Z.of_nat k) target sel = Ok r ->
  render_frame c inflate s' (Z.of_nat k') target' sel' = Ok r' ->
  forall x y, 0 <= x < canvas_width s -> 0 <= y < canvas_height s ->
  0 <= x + dx < canvas_width s' -> 0 <= y + dy < canvas_height s' ->
  pixel (canvas_width s') target' (x + dx) (y + dy) = pixel (canvas_width s) target x y ->
  pixel (canvas_width s') r' (x + dx) (y + dy) = pixel (canvas_width s) r x y.
Proof.
  intros Hc Hi Ha Hl Hi' Ha' Hl' Hd Hp inflate Hinf Hfit Hfit' sel sel' k sf k' sf' dx dy Hk Hk' HS t t' r r' Ht Ht' Hr Hr' x y Hx Hy Hx' Hy' E.
  destruct (render_composes c i s Hc Hi Ha Hl inflate Hinf Hfit sel k sf t r Hk Ht Hr x y Hx Hy) as (b & p & B & P & C).
  destruct (render_composes c i' s' Hc Hi' Ha' Hl' inflate Hinf Hfit' sel' k' sf' t' r' Hk' Ht' Hr' _ _ Hx' Hy') as (b' & p' & B' & P' & C').
  rewrite P, P'. f_equal. assert (b' = b) as -> by congruence.
  eapply composed_unique; [exact C'|]. eapply composed_moved; eassumption.
Qed.

(** ** C76 *)
Lemma image_cels_app fs more : exists l, image_cels (fs ++ more) = image_cels fs ++ l.
Proof.
  unfold image_cels, file_cels. rewrite numbered_app, flat_map_app, flat_map_app. eauto.
Qed.
Lemma spec_layers_none cs : Forall (fun x => role_of x <> Layers) cs -> spec_layers cs = [].
Proof.
  unfold spec_layers. induction 1 as [|x cs Hx H IH]; [reflexivity|]. cbn [suffixes flat_map]. rewrite IH.
  destruct x; try reflexivity. cbn in Hx. congruence.
Qed.
Lemma flat_map_none {A B} (f : A -> list B) l : Forall (fun a => f a = []) l -> flat_map f l = [].
Proof. intro H. apply flat_map_nil. now apply Forall_forall. Qed.

Lemma continued_parts raw raw' : continued raw raw' -> same_picture_header (rw_header raw) (rw_header raw') ->
  spec_all_layers raw' = spec_all_layers raw /\ palette_of raw' = palette_of raw /\
  forall pal pal', exists fs ts ss, f_frames (file_of raw' pal') = f_frames (file_of raw pal) ++ fs /\
    f_tags (file_of raw' pal') = f_tags (file_of raw pal) ++ ts /\ f_slices (file_of raw' pal') = f_slices (file_of raw pal) ++ ss.
Proof.
  intros (more & Hf & Hm) (_ & _ & Hd & Ht).
  assert (L : spec_all_layers raw' = spec_all_layers raw).
  { unfold spec_all_layers. rewrite Hf, flat_map_app. rewrite (flat_map_none _ more); [apply app_nil_r|].
    eapply Forall_impl; [|exact Hm]. intros fr H. apply spec_layers_none. eapply Forall_impl; [|exact H]. now intros x [Hx _]. }
  split; [exact L|]. split.
  - unfold palette_of. rewrite <- Hd, <- Ht. destruct (h_color_depth (rw_header raw)) eqn:Ed; try reflexivity.
    replace (spec_palette (h_transparent_index (rw_header raw)) (rw_frames raw')) with (spec_palette (h_transparent_index (rw_header raw)) (rw_frames raw)); [reflexivity|].
    unfold spec_palette. replace (spec_writes (rw_frames raw')) with (spec_writes (rw_frames raw)); [reflexivity|].
    unfold spec_writes, new_palettes, palettes_0004, palettes_0011, all_chunks. rewrite Hf, !flat_map_app.
    assert (N : forall (A : Type) (g : chunk -> list A), (forall x, role_of x <> Colours -> g x = []) -> flat_map g (flat_map rf_chunks more) = []).
    { intros A g Hg. apply flat_map_nil. intros x Hx. apply in_flat_map in Hx as (fr & Hfr & Hx).
      rewrite Forall_forall in Hm. specialize (Hm fr Hfr). rewrite Forall_forall in Hm. apply Hg. now apply (Hm x Hx). }
    rewrite !N, !app_nil_r by (intros []; cbn; congruence). reflexivity.
  - intros pal pal'. cbn. rewrite Hf. unfold layer_count. rewrite L, map_app, !flat_map_app.
    do 3 eexists. split; [reflexivity|]. split; reflexivity.
Qed.

Lemma shows_prefix fs fs' k x fc fc' l : image_cels fs' = image_cels fs ++ l -> NoDup (map fst (image_cels fs')) ->
  shows fs k x fc -> shows fs' k x fc' -> fc = fc'.
Proof.
  intros E N (H1 & H2 & H3 & p & im & Hp & Hn & Hs) (H1' & H2' & H3' & p' & im' & Hp' & Hn' & Hs').
  assert (p' = p) as -> by congruence.
  assert (Hn2 : nth_error (image_cels fs') (Z.to_nat (fc_image_index fc)) = Some (p, cc_layer_index x, im)).
  { rewrite E, nth_error_app1; [exact Hn|]. apply nth_error_Some. congruence. }
  assert (J : Z.to_nat (fc_image_index fc) = Z.to_nat (fc_image_index fc')).
  { apply (proj1 (NoDup_nth_error (map fst (image_cels fs'))) N).
    - apply nth_error_Some. rewrite nth_error_map, Hn2. discriminate.
    - now rewrite !nth_error_map, Hn2, Hn'. }
  rewrite <- J, Hn2 in Hn'. injection Hn' as <-. destruct fc, fc'. cbn in *. subst. f_equal. lia.
Qed.

Lemma load_image_same c inflate s s' j t : 0 <= j -> nth_error (af_images s) (Z.to_nat j) = nth_error (af_images s') (Z.to_nat j) ->
  h_color_depth (f_header (af_file s)) = h_color_depth (f_header (af_file s')) -> f_palette (af_file s) = f_palette (af_file s') ->
  load_image c inflate s j t = load_image c inflate s' j t.
Proof.
  intros H0 Hj Hd Hp. unfold load_image, get_index, decode_image. replace (0 <=? j) with true by lia. rewrite Hj, Hd, Hp. reflexivity.
Qed.

Lemma frames_continue c i i' raw raw' s s' : cfg_ok c -> is_bytes i -> addressable c i -> is_bytes i' -> addressable c i' ->
  parse_raw_file c i = Ok raw -> parse_raw_file c i' = Ok raw' ->
  same_picture_header (rw_header raw) (rw_header raw') -> continued raw raw' ->
  load c i = Ok s -> load c i' = Ok s' ->
  api_size s = api_size s' /\ api_layers s = api_layers s' /\
  (exists l, api_frames s' = api_frames s ++ l) /\ (exists l, api_tags s' = api_tags s ++ l) /\
  (exists l, api_slices s' = api_slices s ++ l) /\
  forall inflate,
    (forall j target, 0 <= j < api_image_count s -> load_image c inflate s' j target = load_image c inflate s j target) /\
    (forall k target sel, 0 <= k < zlen (api_frames s) ->
       render_frame c inflate s' k target sel = render_frame c inflate s k target sel).
Proof.
  intros Hc Hi Ha Hi' Ha' Hr Hr' Hh Hco Hl Hl'.
  pose proof (loaded_parse c i s Hl) as Hp. pose proof (loaded_parse c i' s' Hl') as Hp'.
  pose proof (loaded_build c i s Hl) as Hb. pose proof (loaded_build c i' s' Hl') as Hb'.
  pose proof (parsed_wf c i' _ Hc Hi' Ha' Hp') as W'.
  destruct (continued_parts raw raw' Hco Hh) as (EL & EP & Parts).
  destruct (parse_file_ok c i _ Hc Hi Ha Hp) as (raw0 & pal & _ & Hr0 & Hpal & Ef & _). assert (raw0 = raw) as -> by congruence.
  destruct (parse_file_ok c i' _ Hc Hi' Ha' Hp') as (raw1 & pal' & _ & Hr1 & Hpal' & Ef' & _). assert (raw1 = raw') as -> by congruence.
  assert (pal' = pal) as -> by congruence.
  destruct (Parts pal pal) as (fs & ts & ss & Efr & Ets & Ess). clear Parts. rewrite <- Ef, <- Ef' in Efr, Ets, Ess.
  assert (Hd : h_color_depth (f_header (af_file s)) = h_color_depth (f_header (af_file s'))) by (rewrite Ef, Ef'; apply Hh).
  assert (Hpe : f_palette (af_file s) = f_palette (af_file s')) by (rewrite Ef, Ef'; reflexivity).
  assert (Hcan : same_canvas s s').
  { unfold same_canvas, canvas_width, canvas_height. split; [rewrite Ef, Ef'; apply Hh|]. split; [rewrite Ef, Ef'; apply Hh|exact Hd]. }
  pose proof (build_sprite_ok _ _ Hb) as (_ & L & T & I & FR). pose proof (build_sprite_ok _ _ Hb') as (_ & L' & T' & I' & FR').
  assert (ELy : af_layers s = af_layers s') by (rewrite L, L', Ef, Ef'; cbn; now rewrite EL).
  destruct (image_cels_app (f_frames (af_file s)) fs) as [more Emore]. rewrite <- Efr in Emore.
  assert (Pre : exists l, af_frames s' = af_frames s ++ l).
  { rewrite Efr, numbered_app in FR'. apply Forall2_app_inv_l in FR' as (a & b & Fa & Fb & ->). exists b. f_equal.
    clear - FR Fa Emore W' Efr. assert (N : NoDup (map fst (image_cels (f_frames (af_file s'))))) by now apply image_keys.
    rewrite Efr in Emore, N. clear W' Efr.
    revert a Fa. induction FR as [|[k fr] sf lf ls H FR IH]; intros a Fa; inversion Fa as [|? sf' ? ? H' Fa']; subst; [reflexivity|].
    f_equal; [|now apply IH]. destruct H as (D & O & C), H' as (D' & O' & C'). cbn [fst snd] in *.
    assert (E : sf_cels sf' = sf_cels sf).
    { revert C'. generalize (sf_cels sf'). induction C as [|x fc xs fcs Hx C IHc]; intros l C'; inversion C' as [|? fc' ? ? Hx' C'']; subst; [reflexivity|].
      f_equal; [|now apply IHc]. symmetry. eapply shows_prefix; [exact Emore|exact N| |]; eassumption. }
    destruct sf, sf'. cbn in *. congruence. }
  assert (EIm : exists l, af_images s' = af_images s ++ l) by (rewrite I, I', Emore, map_app; eauto).
  split; [unfold api_size; rewrite Ef, Ef'; cbn; destruct Hh as (-> & -> & _); reflexivity|].
  split; [exact ELy|]. split; [exact Pre|].
  split; [unfold api_tags; rewrite T, T', Ets, map_app; eauto|]. split; [unfold api_slices; rewrite Ess; eauto|].
  intro inflate. destruct EIm as [limg EIm]. split.
  - intros j t Hj. apply load_image_same; [lia| |congruence|congruence].
    rewrite EIm, nth_error_app1; [reflexivity|]. unfold api_image_count, zlen in Hj. lia.
  - intros k t sel Hk. destruct Pre as [lfr Pre].
    assert (D : exists sf, nth_error (af_frames s) (Z.to_nat k) = Some sf).
    { destruct (nth_error (af_frames s) (Z.to_nat k)) eqn:E; [eauto|]. apply nth_error_None in E. unfold api_frames, zlen in Hk. lia. }
    destruct D as [sf D]. assert (D' : nth_error (af_frames s') (Z.to_nat k) = Some sf).
    { rewrite Pre, nth_error_app1; [exact D|]. apply nth_error_Some. congruence. }
    rewrite <- (Z2Nat.id k) by lia. symmetry.
    apply (same_picture c i s i' s' Hc Hi Ha Hl Hi' Ha' Hl' Hcan Hpe sel sel _ sf _ sf D D').
    unfold shown. pose proof (frame_cels_ok c i s Hc Hi Ha Hl _ sf D) as OK.
    induction OK as [|cel cels Hok OK IH]; [reflexivity|]. cbn [flat_map]. rewrite IH. f_equal.
    rewrite (drawn_same s s' sel cel cel ELy eq_refl). destruct (drawn s' sel cel); [|reflexivity].
    destruct Hok as (_ & im & Hj & _). rewrite EIm, nth_error_app1; [reflexivity|].
    apply nth_error_Some. congruence.
Qed.
