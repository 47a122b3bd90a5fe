(** Animations played backwards (C128). *)
From Verif.Model Require Import Loader.
From Verif.Spec Require Import Bytes Format Encode FileSpec LoaderSpec ImageSpec RenderSpec Published Edits Taken.
From Verif.Proofs Require Import ParseLib FileFacts FileProps FileFinal LoaderFacts LoaderProps EncodeFacts EncodeProps WriterFinal PublishedProps EditFacts EditProps TakenProps.

Definition turned_frame (n : Z) (fr : raw_frame) : raw_frame :=
  {| rf_duration := rf_duration fr; rf_chunks := map (turned n) (rf_chunks fr) |}.

Lemma turned_layer n x : cc_layer_index (turned_cel n x) = cc_layer_index x.
Proof. unfold turned_cel. now destruct (cc_content x). Qed.
Lemma turned_with n x u : turned_cel n (cel_with x u) = cel_with (turned_cel n x) u.
Proof. unfold turned_cel. cbn. now destruct (cc_content x). Qed.
Lemma turned_followers n cs : followers (map (turned n) cs) = followers cs.
Proof. induction cs as [|x cs IH]; [reflexivity|]. destruct x; try reflexivity. cbn. now rewrite IH. Qed.
Lemma turned_cels n cs : spec_cels (map (turned n) cs) = map (turned_cel n) (spec_cels cs).
Proof.
  unfold spec_cels. induction cs as [|x cs IH]; [reflexivity|]. cbn [map suffixes flat_map]. rewrite IH, map_app. f_equal.
  destruct x; try reflexivity. cbn [turned map]. unfold own. rewrite turned_followers, turned_with. reflexivity.
Qed.
Lemma turned_layers n cs : spec_layers (map (turned n) cs) = spec_layers cs.
Proof.
  unfold spec_layers. induction cs as [|x cs IH]; [reflexivity|]. cbn [map suffixes flat_map]. rewrite IH. f_equal.
  destruct x; try reflexivity. cbn [turned]. unfold own. now rewrite turned_followers.
Qed.
Lemma turned_plain {A} (g : chunk -> list A) n cs : (forall y, g (ChCel y) = []) -> flat_map g (map (turned n) cs) = flat_map g cs.
Proof.
  intro H. induction cs as [|x cs IH]; [reflexivity|]. cbn [map flat_map]. rewrite IH. f_equal.
  destruct x; try reflexivity. cbn [turned]. now rewrite !H.
Qed.
Lemma turned_at n k cs : cel_at k (map (turned_cel n) cs) = option_map (turned_cel n) (cel_at k cs).
Proof.
  unfold cel_at. rewrite <- map_rev. induction (rev cs) as [|x l IH]; [reflexivity|]. cbn [map find]. rewrite turned_layer.
  destruct (_ =? _); [reflexivity|exact IH].
Qed.
Lemma turned_size n x : zlen (enc_chunk (turned n x)) = zlen (enc_chunk x).
Proof.
  destruct x as [| | |x| | | | | | | | | | |]; try reflexivity. cbn [turned]. unfold turned_cel. destruct (cc_content x) eqn:E; try reflexivity.
  unfold enc_chunk, encode_chunk. cbn [enc_payload chunk_code]. unfold enc_cel. rewrite E. cbn [enc_content cel_code cc_content cc_layer_index cc_x cc_y cc_opacity cc_z_index].
  unfold zlen. rewrite ?app_length, ?length_le. reflexivity.
Qed.
Lemma turned_sizes n cs : zlen (flat_map enc_chunk (map (turned n) cs)) = zlen (flat_map enc_chunk cs).
Proof.
  induction cs as [|x cs IH]; [reflexivity|]. cbn [map flat_map]. rewrite !zlen_app, IH. now rewrite turned_size.
Qed.
Lemma turned_frame_size n fr : zlen (enc_raw_frame (turned_frame n fr)) = zlen (enc_raw_frame fr).
Proof.
  unfold enc_raw_frame, turned_frame. cbn [rf_duration rf_chunks]. rewrite !zlen_app, turned_sizes.
  replace (zlen (map (turned n) (rf_chunks fr))) with (zlen (rf_chunks fr)) by (unfold zlen; now rewrite map_length). reflexivity.
Qed.
Lemma sizes_rev (f : raw_frame -> bytes) l : zlen (flat_map f (rev l)) = zlen (flat_map f l).
Proof.
  induction l as [|a l IH]; [reflexivity|]. cbn [rev flat_map]. rewrite flat_map_app, !zlen_app, IH. cbn [flat_map].
  rewrite zlen_app. change (zlen (@nil Z)) with 0. lia.
Qed.
Lemma backwards_size raw : zlen (enc_file (backwards raw)) = zlen (enc_file raw).
Proof.
  unfold enc_file, backwards. cbn [rw_header rw_frames]. rewrite !zlen_app. f_equal. rewrite sizes_rev.
  generalize (zlen (rw_frames raw)). intro n. induction (rw_frames raw) as [|a l IH]; [reflexivity|].
  cbn [map flat_map]. rewrite !zlen_app, IH. f_equal. apply (turned_frame_size n a).
Qed.

Lemma turned_wf n x : n <= 65536 -> wf_chunk x -> wf_chunk (turned n x).
Proof.
  intros Hn [H1 H2]. split; [|now rewrite turned_size]. destruct x as [| | |x| | | | | | | | | | |]; try exact H1. cbn [turned wf_payload] in *.
  unfold turned_cel. destruct (cc_content x) eqn:E; try exact H1.
  destruct H1 as (A & B & C & D & F & G & I). rewrite E in G. cbn [wf_content] in G.
  refine (conj A (conj B (conj C (conj D (conj F (conj _ I)))))). cbn [cc_content wf_content].
  unfold u16, uint in *. destruct (Z.ltb_spec frame_position n); lia.
Qed.
Lemma backwards_wf raw : zlen (rw_frames raw) <= 65536 -> wf_file raw -> wf_file (backwards raw).
Proof.
  intros Hn (A & B & C). split; [exact A|]. split.
  { cbn [backwards rw_frames]. intro H. apply B. apply (f_equal (@length _)) in H. rewrite rev_length, map_length in H.
    now destruct (rw_frames raw). }
  cbn [backwards rw_frames]. apply Forall_rev. apply Forall_map. revert C. apply Forall_impl. intros fr (D1 & D2 & D3).
  split; [exact D1|]. split; [|fold (turned_frame (zlen (rw_frames raw)) fr); now rewrite turned_frame_size].
  cbn [rf_chunks]. apply Forall_map. revert D2. apply Forall_impl. intros x. now apply turned_wf.
Qed.

(** What is in one frame only *)
Lemma flat_map_none {A B} (f : A -> list B) l : Forall (fun x => f x = []) l -> flat_map f l = [].
Proof. induction 1 as [|x l H _ IH]; [reflexivity|]. cbn. now rewrite H. Qed.
Lemma flat_map_one {A B} (f : A -> list B) a x b : Forall (fun x => f x = []) (a ++ b) ->
  flat_map f (a ++ [x] ++ b) = f x /\ flat_map f (rev (a ++ [x] ++ b)) = f x.
Proof.
  intro H. apply Forall_app in H as [Ha Hb]. rewrite !rev_app_distr, !flat_map_app. cbn [rev flat_map app].
  rewrite (flat_map_none f a Ha), (flat_map_none f b Hb), (flat_map_none f (rev a)), (flat_map_none f (rev b)) by now apply Forall_rev.
  cbn [app]. now rewrite !app_nil_r.
Qed.
Lemma turned_one {B} (f : list chunk -> list B) n fs a x b : fs = a ++ [x] ++ b ->
  (forall cs, f (map (turned n) cs) = f cs) -> Forall (fun fr => f (rf_chunks fr) = []) (a ++ b) ->
  flat_map (fun fr => f (rf_chunks fr)) (rev (map (turned_frame n) fs)) = flat_map (fun fr => f (rf_chunks fr)) fs.
Proof.
  intros -> Hf H. rewrite <- map_rev, flat_map_map. cbn [turned_frame rf_chunks].
  transitivity (flat_map (fun fr => f (rf_chunks fr)) (rev (a ++ [x] ++ b))).
  { apply flat_map_ext. intro fr. apply Hf. }
  destruct (flat_map_one (fun fr => f (rf_chunks fr)) a x b H) as [-> ->]. reflexivity.
Qed.
Lemma no_layers cs : Forall (fun x => role_of x <> Layers) cs -> spec_layers cs = [].
Proof.
  unfold spec_layers. induction 1 as [|x cs H _ IH]; [reflexivity|]. cbn [suffixes flat_map]. rewrite IH.
  destruct x; try reflexivity. now destruct H.
Qed.

Lemma backwards_layers raw : gathered raw -> spec_all_layers (backwards raw) = spec_all_layers raw.
Proof.
  intros (a & fr & b & E & H). unfold spec_all_layers. cbn [backwards rw_frames].
  apply (turned_one spec_layers _ _ a fr b E); [apply turned_layers|].
  revert H. apply Forall_impl. intros x Hx. apply no_layers. revert Hx. apply Forall_impl. now intros y [Hy _].
Qed.
Lemma backwards_palette raw : gathered raw -> palette_of (backwards raw) = palette_of raw.
Proof.
  intros (a & fr & b & E & H). unfold palette_of. cbn [backwards rw_header]. destruct (h_color_depth (rw_header raw)) eqn:D; try reflexivity.
  assert (G : forall B (g : chunk -> list B), (forall x, role_of x <> Colours -> g x = []) ->
    flat_map g (all_chunks (rw_frames (backwards raw))) = flat_map g (all_chunks (rw_frames raw))).
  { intros B g Hg. unfold all_chunks. rewrite !flat_map_flat_map. cbn [backwards rw_frames].
    apply (turned_one (flat_map g) _ _ a fr b E).
    - intro cs. apply turned_plain. intro y. now apply Hg.
    - revert H. apply Forall_impl. intros x Hx. apply flat_map_none. revert Hx. apply Forall_impl.
      intros y [_ Hy]. apply Hg. now apply Hy. }
  replace (spec_palette (h_transparent_index (rw_header raw)) (rw_frames (backwards raw)))
    with (spec_palette (h_transparent_index (rw_header raw)) (rw_frames raw)); [reflexivity|].
  unfold spec_palette, spec_writes, new_palettes, palettes_0004, palettes_0011.
  rewrite !G; [reflexivity|..]; intros [] Hx; try reflexivity; now destruct Hx.
Qed.
Lemma backwards_cels raw n : gathered raw -> Forall (fun x => cc_layer_index x < n) (frame_cels raw) ->
  Forall (fun x => cc_layer_index x < n) (frame_cels (backwards raw)).
Proof.
  intros _ H. rewrite Forall_forall in *. intros y Hy. unfold frame_cels in *. apply in_flat_map in Hy as (fr' & Hf & Hy).
  cbn [backwards rw_frames] in Hf. apply in_rev, in_map_iff in Hf as (fr & <- & Hf). cbn [rf_chunks] in Hy.
  rewrite turned_cels in Hy. apply in_map_iff in Hy as (x & <- & Hx). rewrite turned_layer. apply H.
  apply in_flat_map. eauto.
Qed.

Lemma turned_slots n m cs j : nth_error (slots m (map (turned_cel n) cs)) j = option_map (option_map (turned_cel n)) (nth_error (slots m cs) j).
Proof.
  unfold slots. rewrite !nth_error_map. destruct (nth_error (zrange m) j); [|reflexivity]. cbn [option_map]. now rewrite turned_at.
Qed.

Lemma rev_nth_error {A} (l : list A) j a : nth_error (rev l) j = Some a -> nth_error l (length l - 1 - j) = Some a.
Proof.
  intro H. assert (Hj : (j < length (rev l))%nat) by (apply nth_error_Some; congruence). rewrite rev_length in Hj.
  rewrite (nth_error_nth' _ a) in H by (now rewrite rev_length). rewrite rev_nth in H by exact Hj. injection H as H.
  rewrite (nth_error_nth' _ a) by lia. f_equal. rewrite <- H at 2. f_equal. lia.
Qed.

Lemma plays_backwards c i raw s : cfg_ok c -> is_bytes i -> addressable c i -> parse_raw_file c i = Ok raw -> no_map_error raw ->
  load c i = Ok s -> gathered raw -> zlen (rw_frames raw) <= 65536 ->
  zlen (enc_file (backwards raw)) = zlen (enc_file raw) /\
  exists s', load c (enc_file (backwards raw)) = Ok s' /\ f_header (af_file s') = f_header (af_file s) /\ api_layers s' = api_layers s /\
    length (api_frames s') = length (api_frames s) /\
    forall j sf', nth_error (api_frames s') j = Some sf' -> exists sf, nth_error (api_frames s) (length (api_frames s) - 1 - j) = Some sf /\
      sf_duration sf' = sf_duration sf /\
      forall inflate target sel, render_frame c inflate s' (Z.of_nat j) target sel =
        render_frame c inflate s (Z.of_nat (length (api_frames s) - 1 - j)) target sel.
Proof.
  intros Hc Hi Ha Hr Hn Hl HG Hlen. split; [apply backwards_size|].
  destruct (proj2 (parser_range c raw Hc) (conj Hn (ex_intro _ i (conj Hi (conj Ha Hr))))) as [Hw Haw].
  pose proof (backwards_wf raw Hlen Hw) as Hw'.
  assert (Haw' : addressable c (enc_file (backwards raw))) by (unfold addressable in *; now rewrite backwards_size).
  destruct (proj1 (parser_range c (backwards raw) Hc) (conj Hw' Haw')) as [Hn' _].
  assert (Hi' : is_bytes (enc_file (backwards raw))).
  { apply (file_writes not_maps _ Hw'). }
  assert (Hr' : parse_raw_file c (enc_file (backwards raw)) = Ok (backwards raw)) by now apply write_read.
  pose proof (loaded_parse c i s Hl) as Hp. pose proof (loaded_build c i s Hl) as Hb.
  destruct (parse_file_ok c i _ Hc Hi Ha Hp) as (raw0 & pal & _ & Hr0 & HP & HF & HC).
  assert (raw0 = raw) as -> by congruence.
  assert (Hp' : parse_file c (enc_file (backwards raw)) = Ok (file_of (backwards raw) pal)).
  { rewrite parse_file_eq by assumption. rewrite Hr'. cbn [bind]. unfold spec_outcome. rewrite backwards_palette, HP by exact HG.
    destruct (find _ _) as [x|] eqn:E; [|reflexivity]. exfalso.
    apply find_some in E as [Hin E]. unfold layer_count in *. rewrite backwards_layers in E by exact HG.
    pose proof (backwards_cels raw _ HG HC) as K. rewrite Forall_forall in K. specialize (K x Hin). unfold bad_cel in E. lia. }
  assert (P : problems (f_frames (af_file s)) = []).
  { pose proof (build_sprite_outcome (af_file s)) as H. destruct (problems _); [reflexivity|]. congruence. }
  pose proof (parsed_wf c i _ Hc Hi Ha Hp) as W.
  set (n := length (f_frames (af_file s))).
  assert (En : n = length (rw_frames raw)) by (subst n; rewrite HF; cbn [file_of f_frames]; apply map_length).
  assert (EZ : zlen (rw_frames raw) = Z.of_nat n) by (unfold zlen; now rewrite En).
  set (fs := f_frames (af_file s)) in *. set (fs' := f_frames (file_of (backwards raw) pal)).
  assert (Efr : forall j fr', nth_error fs' j = Some fr' -> exists rf, nth_error (rw_frames raw) (n - 1 - j) = Some rf /\
    nth_error fs (n - 1 - j) = Some {| fr_duration := rf_duration rf; fr_cels := slots (layer_count raw) (spec_cels (rf_chunks rf)) |} /\
    fr' = {| fr_duration := rf_duration rf; fr_cels := slots (layer_count raw) (map (turned_cel (Z.of_nat n)) (spec_cels (rf_chunks rf))) |}).
  { intros j fr' H. subst fs'. cbn [file_of f_frames] in H. rewrite nth_error_map in H.
    destruct (nth_error (rw_frames (backwards raw)) j) as [rf'|] eqn:E; [|discriminate]. injection H as <-.
    cbn [backwards rw_frames] in E. apply rev_nth_error in E. rewrite map_length, <- En in E. rewrite nth_error_map in E.
    destruct (nth_error (rw_frames raw) (n - 1 - j)) as [rf|] eqn:E2; [|discriminate]. injection E as <-.
    exists rf. split; [reflexivity|]. split.
    - subst fs. rewrite HF. cbn [file_of f_frames]. rewrite nth_error_map, E2. reflexivity.
    - cbn [rf_duration rf_chunks]. rewrite turned_cels, EZ. unfold layer_count. rewrite backwards_layers by exact HG. reflexivity. }
  assert (Fr2 : forall k rf, nth_error (rw_frames raw) k = Some rf ->
    nth_error fs' (n - 1 - k) = Some {| fr_duration := rf_duration rf; fr_cels := slots (layer_count raw) (map (turned_cel (Z.of_nat n)) (spec_cels (rf_chunks rf))) |}).
  { intros k rf H. assert (Hk : (k < n)%nat) by (rewrite En; apply nth_error_Some; congruence).
    assert (E : exists fr', nth_error fs' (n - 1 - k) = Some fr').
    { destruct (nth_error fs' (n - 1 - k)) eqn:E; [eauto|]. exfalso. apply nth_error_None in E. subst fs'.
      cbn [file_of f_frames backwards rw_frames] in E. rewrite map_length, rev_length, map_length, <- En in E. lia. }
    destruct E as [fr' E]. destruct (Efr _ _ E) as (rf2 & E2 & _ & E3). replace (n - 1 - (n - 1 - k))%nat with k in E2 by lia.
    assert (rf2 = rf) as -> by congruence. now rewrite <- E3. }
  destruct (frames_taken c i (enc_file (backwards raw)) s (file_of (backwards raw) pal) (fun j => n - 1 - j)%nat
              Hc Hi Ha Hi' Haw' Hl Hp') as (s' & L1 & L2 & L3 & L4 & L5).
  - rewrite HF. unfold same_picture_header. cbn [file_of f_header backwards rw_header]. auto.
  - rewrite HF. reflexivity.
  - rewrite HF. cbn [file_of f_layers]. symmetry. now apply backwards_layers.
  - intros j fr' Hj. fold fs'. fold fs. change (nth_error fs' j = Some fr') in Hj.
    destruct (Efr j fr' Hj) as (rf & Hrf & Hfs & ->). eexists. split; [exact Hfs|]. split; [reflexivity|]. cbn [fr_cels].
    assert (Slots : forall j0 x, nth_error (slots (layer_count raw) (spec_cels (rf_chunks rf))) j0 = Some (Some x) ->
      alike fs fs' x (turned_cel (Z.of_nat n) x)).
    { intros j0 x Hx. set (fr := {| fr_duration := rf_duration rf; fr_cels := slots (layer_count raw) (spec_cels (rf_chunks rf)) |}) in *.
      assert (Hfill : In x (filled fr)) by (apply filled_in; exists j0; exact Hx).
      assert (Hin : In (Z.of_nat (n - 1 - j), x) (file_cels fs)).
      { apply file_cels_in. split; [lia|]. exists fr. rewrite Nat2Z.id. auto. }
      unfold problems in P. rewrite flat_map_nil in P. specialize (P _ Hin).
      destruct (cel_problem_none fs _ x W P) as [im Him]. unfold resolved in Him.
      unfold alike. rewrite turned_layer. split; [reflexivity|].
      unfold turned_cel. destruct (cc_content x) eqn:Ec; try discriminate Him.
      - injection Him as ->. split; [reflexivity|]. split; [reflexivity|]. exists im. split; left; exact Ec.
      - split; [reflexivity|]. split; [reflexivity|]. exists im.
        assert (P0 : 0 <= frame_position).
        { eapply (linked_nonneg c i (af_file s) fr x); try eassumption; [eapply nth_error_In; exact Hfs|].
          eapply nth_error_In. exact Hx. }
        split; [right; exists frame_position; auto|]. right. cbn [cc_content cc_layer_index].
        unfold image_at in Him. destruct (nth_error fs (Z.to_nat frame_position)) as [frp|] eqn:Ep; [|discriminate].
        assert (Hlt : (Z.to_nat frame_position < n)%nat) by (apply nth_error_Some; fold fs; congruence).
        destruct (Z.ltb_spec frame_position (Z.of_nat n)); [|lia].
        eexists. split; [|split; [reflexivity|]]; [lia|]. unfold image_at.
        replace (Z.to_nat (Z.of_nat n - 1 - frame_position)) with (n - 1 - Z.to_nat frame_position)%nat by lia.
        subst fs. rewrite HF in Ep. cbn [file_of f_frames] in Ep. rewrite nth_error_map in Ep.
        destruct (nth_error (rw_frames raw) (Z.to_nat frame_position)) as [rfp|] eqn:Erp; [|discriminate]. injection Ep as <-.
        rewrite (Fr2 _ _ Erp). cbn [fr_cels] in *. rewrite turned_slots.
        destruct (nth_error (slots _ _) (Z.to_nat (cc_layer_index x))) as [[z|]|]; try discriminate Him. cbn [option_map].
        unfold turned_cel. destruct (cc_content z) eqn:Ez; try discriminate Him. rewrite Ez. exact Him. }
    clear - Slots. unfold slots in *.
    induction (zrange (layer_count raw)) as [|k l IH]; [constructor|]. cbn [map]. constructor.
    + rewrite turned_at. specialize (Slots O). cbn [map nth_error] in Slots. destruct (cel_at k _) as [x|]; [|exact I]. cbn [option_map].
      now apply Slots.
    + apply IH. intros j0 x Hx. apply (Slots (S j0)). exact Hx.
  - exists s'. split; [exact L1|]. split; [rewrite L2, HF; reflexivity|]. split; [exact L3|].
    assert (EL : length (api_frames s) = n).
    { pose proof (build_sprite_ok _ _ Hb) as (_ & _ & _ & _ & FR). pose proof (Forall2_length _ _ _ FR) as E. rewrite numbered_length in E. symmetry. exact E. }
    rewrite EL. split; [|exact L5]. rewrite L4. cbn [file_of f_frames backwards rw_frames]. now rewrite map_length, rev_length, map_length, <- En.
Qed.
