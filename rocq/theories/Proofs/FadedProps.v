(** Indexed files with other colours in their palettes (C132). *)
From Verif.Model Require Import Loader.
From Verif.Spec Require Import Bytes BlendSpec ImageSpec RenderSpec FileSpec Published Edits Recoded Stable Faded.
From Verif.Proofs Require Import BlendFacts BlendProps LoaderFacts LoaderProps FileProps ImageProps RenderFacts RenderProps CanvasProps EditFacts RecodedProps StableProps ExactProps AlphaProps.

(** ** Loading *)
Lemma faded_load c i i' raw raw' s pal' : cfg_ok c -> is_bytes i -> addressable c i -> is_bytes i' -> addressable c i' ->
  parse_raw_file c i = Ok raw -> parse_raw_file c i' = Ok raw' ->
  same_picture_header (rw_header raw) (rw_header raw') -> frames_by (Forall2 recoded) raw raw' ->
  load c i = Ok s -> palette_of raw' = Ok pal' ->
  exists s', load c i' = Ok s' /\ same_but_palette s s' /\ f_palette (af_file s') = pal'.
Proof.
  intros Hc Hi Ha Hi' Ha' Hr Hr' (Hw & Hy & Hd & Ht) HF Hl Hp.
  unfold load in *. rewrite (parse_file_eq c i Hc Hi Ha), Hr in Hl. rewrite (parse_file_eq c i' Hc Hi' Ha'), Hr'. cbn [bind] in *.
  pose proof (frames_by_impl _ _ _ _ recoded_parts HF) as HB. unfold spec_outcome in *.
  rewrite Hp, <- (but_count raw raw' HB), <- (but_cels raw raw' HB).
  destruct (palette_of raw) as [pal|?|?]; cbn [map_err bind] in Hl; try discriminate.
  destruct (find _ _) as [x|]. { unfold cel_failure in Hl. destruct (_ <? _); discriminate. }
  rewrite (but_file raw raw' HB). cbn [map_err bind] in *. unfold build_sprite in *.
  change (f_frames (with_header (file_of raw pal') (rw_header raw'))) with (f_frames (file_of raw pal)).
  destruct (collect_images (f_frames (file_of raw pal))) as [v m]. destruct (map_out _ _) as [frames|e|p]; cbn [bind] in *; try discriminate.
  injection Hl as <-. eexists. split; [reflexivity|]. split; [|reflexivity].
  split; [unfold api_size; cbn; congruence|]. split; [cbn; congruence|]. repeat (split; [reflexivity|]). reflexivity.
Qed.

(** ** Pictures *)
Lemma index_back pal l : forall k r g b a, quad (index_rgba pal l) k = Some (r, g, b, a) ->
  exists v, nth_error l k = Some v /\ mkpx r g b a = px_of (nth (Z.to_nat v) pal black).
Proof.
  induction l as [|v l IH]; intros [|k] r g b a H; try (unfold quad in H; cbn [index_rgba flat_map] in H; rewrite ?skipn_nil in H; discriminate).
  - cbn in H. injection H as <- <- <- <-. exists v. split; reflexivity.
  - cbn [index_rgba flat_map app] in H. rewrite quad_cons in H. exact (IH k r g b a H).
Qed.
Lemma stored_same inflate im old a b : stored inflate im old a -> stored inflate im old b -> a = b.
Proof. unfold stored. destruct (im_compressed im); [|congruence]. intros (w & H1 & ->) (w' & H2 & ->). congruence. Qed.

Section Two.
Context (c : cfg) (i i' : bytes) (s s' : ase_file) (pal pal' : palette).
Context (Hc : cfg_ok c) (Hi : is_bytes i) (Ha : addressable c i) (Hl : load c i = Ok s).
Context (Hi' : is_bytes i') (Ha' : addressable c i') (Hl' : load c i' = Ok s').
Context (HS : same_but_palette s s') (Hpal : f_palette (af_file s) = Some pal) (Hpal' : f_palette (af_file s') = Some pal').
Context (inflate : inflater) (Hinf : inflate_ok inflate) (sel : layer_selection).

Lemma faded_indexed : h_color_depth (f_header (af_file s)) = Indexed.
Proof.
  destruct (parse_file_ok c i _ Hc Hi Ha (loaded_parse c i s Hl)) as (raw & p & _ & _ & HP & Ef & _).
  rewrite Ef in Hpal |- *. cbn [file_of f_palette f_header] in *. subst p. unfold palette_of in HP.
  destruct (h_color_depth (rw_header raw)); try discriminate. reflexivity.
Qed.
Lemma faded_lengths : length pal = length pal'.
Proof.
  assert (L : forall j t q, is_bytes j -> addressable c j -> load c j = Ok t -> f_palette (af_file t) = Some q -> zlen q = 256).
  { intros j t q Hj Hja Hlj Hq. destruct (parse_file_ok c j _ Hc Hj Hja (loaded_parse c j t Hlj)) as (raw & p & _ & _ & HP & Ef & _).
    rewrite Ef in Hq. cbn [file_of f_palette] in Hq. subst p. unfold palette_of in HP.
    destruct (h_color_depth (rw_header raw)); try discriminate. destruct (spec_palette _ _) eqn:E; [|discriminate]. injection HP as ->.
    now apply spec_palette_nth in E as (_ & _ & _ & H & _). }
  pose proof (L i s pal Hi Ha Hl Hpal). pose proof (L i' s' pal' Hi' Ha' Hl' Hpal'). unfold zlen in *. lia.
Qed.
Lemma faded_depth : h_color_depth (f_header (af_file s')) = Indexed.
Proof. destruct HS as (_ & Hd & _). rewrite Hd. exact faded_indexed. Qed.
Lemma faded_drawn cel : drawn s' sel cel = drawn s sel cel.
Proof. destruct HS as (_ & _ & Hly & _). unfold api_layers in Hly. unfold drawn. now rewrite Hly. Qed.

Lemma faded_pixels (R : px -> px -> Prop) cel image image' w x y p q : (forall a, R a a) -> palettes_rel R pal pal' ->
  cel_image inflate s cel image -> cel_image inflate s' cel image' ->
  pixel w image x y = Some p -> pixel w image' x y = Some q -> R p q.
Proof.
  intros Rr HR (im & Him & Hd) (im' & Him' & Hd') Hp Hq. destruct HS as (_ & _ & _ & _ & _ & _ & Hims & _).
  rewrite Hims in Him'. assert (im' = im) as -> by congruence.
  unfold decoded in Hd, Hd'. rewrite faded_indexed in Hd. rewrite faded_depth in Hd'.
  destruct Hd as (l & p0 & St & P0 & _ & ->), Hd' as (l' & p1 & St' & P1 & _ & ->).
  assert (p0 = pal) as -> by congruence. assert (p1 = pal') as -> by congruence.
  rewrite (stored_same _ _ _ _ _ St' St) in Hq. unfold pixel in Hp, Hq.
  destruct (quad (index_rgba pal l) _) as [[[[r g] b] a]|] eqn:E; [|discriminate]. injection Hp as <-.
  destruct (quad (index_rgba pal' l) _) as [[[[r' g'] b'] a']|] eqn:E'; [|discriminate]. injection Hq as <-.
  apply index_back in E as (v & V & ->). apply index_back in E' as (v' & V' & ->). assert (v' = v) as -> by congruence.
  destruct (nth_error pal (Z.to_nat v)) as [a0|] eqn:N.
  - assert (exists b0, nth_error pal' (Z.to_nat v) = Some b0) as [b0 N'].
    { destruct (nth_error pal' (Z.to_nat v)) eqn:N'; [eauto|]. apply nth_error_None in N'.
      assert (Z.to_nat v < length pal)%nat by (apply nth_error_Some; congruence). rewrite faded_lengths in *. lia. }
    rewrite (nth_error_nth _ _ black N), (nth_error_nth _ _ black N'). exact (HR _ _ _ N N').
  - pose proof (proj1 (nth_error_None _ _) N) as L. rewrite (nth_overflow pal) by exact L. rewrite (nth_overflow pal') by (rewrite <- faded_lengths; exact L). apply Rr.
Qed.

Lemma faded_image cel : (exists image, cel_image inflate s cel image) -> exists image, cel_image inflate s' cel image.
Proof.
  intros (image & im & Him & Hd). destruct HS as (_ & _ & _ & _ & _ & _ & Hims & _). unfold decoded in Hd. rewrite faded_indexed in Hd.
  destruct Hd as (l & p0 & St & P0 & Hz & ->). exists (index_rgba pal' l), im. split; [now rewrite Hims|].
  unfold decoded. rewrite faded_depth. now exists l, pal'.
Qed.

Lemma faded_size : canvas_width s' = canvas_width s /\ canvas_height s' = canvas_height s.
Proof. destruct HS as (Hsz & _). unfold api_size in Hsz. injection Hsz as Hw Hh. split; assumption. Qed.
Lemma faded_fits : sprite_fits c s -> sprite_fits c s'.
Proof.
  destruct HS as (Hsz & _ & _ & _ & _ & _ & Hims & _). destruct faded_size as [Hw Hh]. unfold sprite_fits, canvas_size. now rewrite Hw, Hh, Hims.
Qed.

(** ** Frames *)
Lemma faded_frame k : nth_error (api_frames s') k = nth_error (api_frames s) k.
Proof. destruct HS as (_ & _ & _ & Hf & _). now rewrite Hf. Qed.

Lemma faded_drawable k sf t : sprite_fits c s -> nth_error (api_frames s) k = Some sf -> is_bytes t ->
  (debug c = true -> forall cel l, In cel (sf_cels sf) -> drawn s sel cel = Some l -> separable (ly_blend_mode l)) ->
  (exists r, render_frame c inflate s (Z.of_nat k) t sel = Ok r) ->
  exists r', render_frame c inflate s' (Z.of_nat k) t sel = Ok r'.
Proof.
  intros Hfit Hk Ht Hsep Hr. assert (Hz : canvas_size s <= zlen t).
  { destruct Hr as [r Hr]. now apply (proj1 (render_exactly c i s Hc Hi Ha Hl inflate Hinf Hfit sel k sf t r Hk Ht)). }
  destruct faded_size as [Hw Hh].
  assert (Ez : canvas_size s' = canvas_size s) by (unfold canvas_size; now rewrite Hw, Hh).
  pose proof (faded_fits Hfit) as Hfit'.
  apply (proj2 (render_succeeds c i' s' Hc Hi' Ha' Hl' inflate Hinf Hfit' sel k sf t ltac:(now rewrite faded_frame) Ht ltac:(lia))).
  intros cel l Hin Hd. rewrite faded_drawn in Hd.
  destruct (proj1 (render_succeeds c i s Hc Hi Ha Hl inflate Hinf Hfit sel k sf t Hk Ht Hz) Hr cel l Hin Hd) as [Him Hm].
  split; [now apply faded_image|]. split; [exact Hm|]. intro Dbg. exact (Hsep Dbg cel l Hin Hd).
Qed.

Lemma faded_rel (R : px -> px -> Prop) k sf t t' r r' : sprite_fits c s -> nth_error (api_frames s) k = Some sf ->
  (forall a, R a a) -> palettes_rel R pal pal' ->
  (forall cel l, In cel (sf_cels sf) -> drawn s sel cel = Some l ->
     forall f back back' p q o r r', is_px back -> is_px back' -> is_px p -> is_px q -> is_byte o -> R back back' -> R p q ->
       blend_mode_to_blend_fn c (ly_blend_mode l) = Ok f -> f back p o = Ok r -> f back' q o = Ok r' -> R r r') ->
  is_bytes t -> is_bytes t' -> canvas_rel s R t t' ->
  render_frame c inflate s (Z.of_nat k) t sel = Ok r -> render_frame c inflate s' (Z.of_nat k) t' sel = Ok r' ->
  canvas_rel s R r r'.
Proof.
  intros Hfit Hk Rr HR Hm. destruct faded_size as [Hw Hh].
  apply (frames_rel c i i' s s' Hc Hi Ha Hl Hi' Ha' Hl' inflate Hinf sel sel R k k sf sf); try assumption.
  - now apply faded_fits.
  - now rewrite faded_frame.
  - apply Forall2_same. intros cel Hin. split; [reflexivity|]. split; [reflexivity|]. rewrite faded_drawn.
    destruct (drawn s sel cel) as [l|] eqn:D; [|exact I]. split; [reflexivity|]. split; [reflexivity|].
    intros image image' x y p q f back back' r0 r0' Im Im' Px Px' Hp Hq Ho Hb Hb' HB Ef E E'.
    eapply (Hm cel l Hin D f back back' p q); try eassumption.
    exact (faded_pixels R cel image image' _ x y p q Rr HR Im Im' Px Px').
Qed.

Lemma faded_within d k sf t t' r r' : 0 <= d -> sprite_fits c s -> nth_error (api_frames s) k = Some sf ->
  palettes_rel (within d) pal pal' ->
  (forall cel l, In cel (sf_cels sf) -> drawn s sel cel = Some l -> calm (ly_blend_mode l)) ->
  is_bytes t -> is_bytes t' -> canvas_rel s (within d) t t' ->
  render_frame c inflate s (Z.of_nat k) t sel = Ok r -> render_frame c inflate s' (Z.of_nat k) t' sel = Ok r' ->
  canvas_rel s (within d) r r'.
Proof.
  intros Hd Hfit Hk HR Hm. apply faded_rel with (sf := sf); try assumption.
  - intro a. unfold within. rewrite !Z.sub_diag. cbn [Z.abs]. auto.
  - intros cel l Hin D f back back' p q o r0 r0' Hb Hb' Hp Hq Ho HB HP Ef E E'.
    exact (calm_pixel _ d c f back back' p q o r0 r0' (Hm cel l Hin D) Hd Hb Hb' Hp Hq Ho HB HP Ef E E').
Qed.
Lemma faded_lighter k sf t t' r r' : sprite_fits c s -> nth_error (api_frames s) k = Some sf ->
  palettes_rel lighter pal pal' ->
  (forall cel l, In cel (sf_cels sf) -> drawn s sel cel = Some l -> ascending (ly_blend_mode l)) ->
  is_bytes t -> is_bytes t' -> canvas_rel s lighter t t' ->
  render_frame c inflate s (Z.of_nat k) t sel = Ok r -> render_frame c inflate s' (Z.of_nat k) t' sel = Ok r' ->
  canvas_rel s lighter r r'.
Proof.
  intros Hfit Hk HR Hm. apply faded_rel with (sf := sf); try assumption.
  - intro a. unfold lighter. repeat split; lia.
  - intros cel l Hin D f back back' p q o r0 r0' Hb Hb' Hp Hq Ho HB HP Ef E E'.
    exact (ascending_pixel _ c f back back' p q o r0 r0' (Hm cel l Hin D) Hb Hb' Hp Hq Ho HB HP Ef E E').
Qed.
Lemma faded_alpha k sf t t' r r' : sprite_fits c s -> nth_error (api_frames s) k = Some sf ->
  palettes_rel equal_alpha pal pal' ->
  is_bytes t -> is_bytes t' -> canvas_rel s equal_alpha t t' ->
  render_frame c inflate s (Z.of_nat k) t sel = Ok r -> render_frame c inflate s' (Z.of_nat k) t' sel = Ok r' ->
  canvas_rel s equal_alpha r r'.
Proof.
  intros Hfit Hk HR. apply faded_rel with (sf := sf); try assumption; [reflexivity|].
  intros cel l Hin D f back back' p q o r0 r0' Hb Hb' Hp Hq Ho HB HP Ef E E'.
  exact (alpha_only c _ _ f f back back' p q o r0 r0' (akin_self c _ f Ef) Hb Hb' Hp Hq Ho HB HP Ef Ef E E').
Qed.
End Two.
