(** Alpha and the selection of layers. *)
From Verif.Model Require Import Loader.
From Verif.Spec Require Import Bytes ImageSpec BlendSpec RenderSpec.
From Verif.Proofs Require Import BinaryFinal BlendFacts BlendProps IdealProps FileFacts LoaderFacts LoaderProps FileFinal ImageProps RenderFacts RenderProps CanvasProps.
From Verif.Tests Require Import Configs Build.

Lemma over_alpha_mono a b f : is_byte a -> is_byte b -> is_byte f -> a <= b -> over_alpha a f <= over_alpha b f.
Proof.
  unfold over_alpha. intros A B F L. pose proof (div255_rounded (a * f) (prod_byte a f A F)) as Ra.
  pose proof (div255_rounded (b * f) (prod_byte b f B F)) as Rb. unfold rounded, is_byte in *.
  assert ((b - a) * f <= (b - a) * 255) by nia. lia.
Qed.
Lemma over_a_mono a b f o : is_byte a -> is_byte b -> is_byte f -> is_byte o -> a <= b -> over_a a f o <= over_a b f o.
Proof.
  intros A B F O L. pose proof (div255_rounded (f * o) (prod_byte f o F O)) as R.
  assert (D : is_byte (div255 (f * o))) by (unfold rounded, is_byte in *; nia).
  pose proof (over_alpha_bounds b _ B D) as H. unfold over_a.
  destruct (Z.eqb_spec a 0) as [Ea|Ea], (Z.eqb_spec b 0) as [Eb|Eb], (Z.eqb_spec f 0) as [Ef|Ef]; try (unfold is_byte in *; lia).
  - subst f. change (div255 (0 * o)) with 0. unfold is_byte in *; lia.
  - now apply over_alpha_mono.
Qed.

(** Alpha of one step *)
Lemma step_alpha c m f back front o r : separable m -> is_px back -> is_px front -> is_byte o ->
  blend_mode_to_blend_fn c m = Ok f -> f back front o = Ok r -> is_px r /\ pa r = over_a (pa back) (pa front) o.
Proof.
  intros S B F O Ef E. destruct (no_panic m back front o S B F O) as (r' & R & H).
  destruct (H c) as (f' & Ef' & E'). assert (f' = f) as -> by congruence. assert (r' = r) as -> by congruence.
  split; [exact R|]. rewrite <- normal_px_a.
  apply (same_alpha m back front o S B F O c f r (normal_px back front o) Ef E). now apply normal_eq.
Qed.

Section Select.
Context (c : cfg) (i : bytes) (s : ase_file).
Context (Hc : cfg_ok c) (Hi : is_bytes i) (Ha : addressable c i) (Hload : load c i = Ok s).
Context (inflate : inflater) (Hinf : inflate_ok inflate) (sel sel' : layer_selection).

Lemma composed_more x y cels :
  (forall cel l, In cel cels -> drawn s sel cel = Some l -> drawn s sel' cel = Some l) ->
  (forall cel l, In cel cels -> drawn s sel' cel = Some l -> separable (ly_blend_mode l)) ->
  forall back back' p p', is_px back -> is_px back' -> pa back <= pa back' ->
  composed c inflate s sel x y cels back p -> composed c inflate s sel' x y cels back' p' -> pa p <= pa p'.
Proof.
  induction cels as [|cel cels IH]; intros M Sp back back' p p' B B' L H H'.
  { inversion H; inversion H'; subst; exact L. }
  assert (IH' := IH (fun cel' l' I => M cel' l' (or_intror I)) (fun cel' l' I => Sp cel' l' (or_intror I))). clear IH.
  assert (Fr : forall l image front, drawn s sel' cel = Some l -> cel_image inflate s cel image ->
    pixel (fst (fc_size cel)) image (x - fst (fc_origin cel)) (y - snd (fc_origin cel)) = Some front -> is_px front /\ is_byte (ly_opacity l)).
  { intros l image front D CI P. split.
    - eapply pixel_px; [|exact P]. eapply cel_image_bytes; eassumption.
    - eapply layer_opacity; [exact Hc|exact Hi|exact Ha|exact Hload|]. eapply drawn_layer; eassumption. }
  inversion H' as [|? ? ? ? K' H1'|? ? ? l' image' front' f' mid' ? D' V' CI' P' Ef' E' H1']; subst.
  - inversion H as [|? ? ? ? K H1|? ? ? l image front f mid ? D V CI P Ef E H1]; subst.
    + exact (IH' _ _ _ _ B B' L H1 H1').
    + apply (M cel l (or_introl eq_refl)) in D. destruct K'; congruence.
  - destruct (Fr l' image' front' D' CI' P') as [F' O'].
    destruct (step_alpha c _ f' back' front' _ mid' (Sp cel l' (or_introl eq_refl) D') B' F' O' Ef' E') as [M' Ea'].
    inversion H as [|? ? ? ? K H1|? ? ? l image front f mid ? D V CI P Ef E H1]; subst.
    + apply (IH' back mid' p p' B M'); [|exact H1|exact H1'].
      destruct B as (_ & _ & _ & Ba), B' as (_ & _ & _ & Bb), F' as (_ & _ & _ & Fa).
      pose proof (div255_rounded (pa front' * ly_opacity l') (prod_byte _ _ Fa O')) as R.
      assert (X : is_byte (div255 (pa front' * ly_opacity l'))) by (unfold rounded, is_byte in *; nia).
      pose proof (over_alpha_bounds (pa back') _ Bb X) as G. rewrite Ea'. unfold over_a.
      destruct (Z.eqb_spec (pa back') 0); [unfold is_byte in *; lia|]. destruct (Z.eqb_spec (pa front') 0); lia.
    + apply (M cel l (or_introl eq_refl)) in D as D2. assert (l' = l) as -> by congruence.
      assert (image' = image) as -> by (eapply cel_image_unique; eassumption). assert (front' = front) as -> by congruence.
      destruct (step_alpha c _ f back front _ mid (Sp cel l (or_introl eq_refl) D') B F' O' Ef E) as [Mm Em].
      apply (IH' mid mid' p p' Mm M'); [|exact H1|exact H1']. rewrite Em, Ea'.
      apply over_a_mono; [apply B|apply B'|apply F'|exact O'|exact L].
Qed.

Lemma more_layers k sf target target' r r' : sprite_fits c s -> nth_error (api_frames s) k = Some sf ->
  is_bytes target -> is_bytes target' ->
  (forall cel l, In cel (sf_cels sf) -> drawn s sel cel = Some l -> drawn s sel' cel = Some l) ->
  (forall cel l, In cel (sf_cels sf) -> drawn s sel' cel = Some l -> separable (ly_blend_mode l)) ->
  render_frame c inflate s (Z.of_nat k) target sel = Ok r ->
  render_frame c inflate s (Z.of_nat k) target' sel' = Ok r' ->
  forall x y p p' q q', 0 <= x < canvas_width s -> 0 <= y < canvas_height s ->
  pixel (canvas_width s) target x y = Some p -> pixel (canvas_width s) target' x y = Some p' -> pa p <= pa p' ->
  pixel (canvas_width s) r x y = Some q -> pixel (canvas_width s) r' x y = Some q' -> pa q <= pa q'.
Proof.
  intros Hfit Hk Hb Hb' M Sp Hr Hr' x y p p' q q' Hx Hy Hp Hp' L Hq Hq'.
  destruct (render_composes c i s Hc Hi Ha Hload inflate Hinf Hfit sel k sf target r Hk Hb Hr x y Hx Hy) as (b1 & q1 & G1 & G2 & G3).
  destruct (render_composes c i s Hc Hi Ha Hload inflate Hinf Hfit sel' k sf target' r' Hk Hb' Hr' x y Hx Hy) as (b2 & q2 & G4 & G5 & G6).
  assert (b1 = p) as -> by congruence. assert (b2 = p') as -> by congruence.
  assert (q1 = q) as -> by congruence. assert (q2 = q') as -> by congruence.
  apply (composed_more x y (sf_cels sf) M Sp p p' q q'); [exact (pixel_px _ _ _ _ _ Hb Hp)|exact (pixel_px _ _ _ _ _ Hb' Hp')|exact L|exact G3|exact G6].
Qed.
End Select.

(** Which selections contain which. *)
Lemma selected_more s : (forall cel l, drawn s SelVisible cel = Some l -> drawn s SelAll cel = Some l) /\
  (forall mask cel l, drawn s (SelMask mask) cel = Some l -> drawn s SelAll cel = Some l) /\
  (forall mask mask', (forall k, nth_error mask k = Some true -> nth_error mask' k = Some true) ->
     forall cel l, drawn s (SelMask mask) cel = Some l -> drawn s (SelMask mask') cel = Some l).
Proof.
  unfold drawn. repeat split.
  - intros cel l. destruct (nth_error _ _) as [l'|]; [|discriminate]. destruct (ly_layer_type l'); try discriminate; cbn [chosen];
      destruct (ly_visible l'); congruence.
  - intros mask cel l. destruct (nth_error (af_layers s) _) as [l'|]; [|discriminate]. destruct (ly_layer_type l'); try discriminate; cbn [chosen];
      destruct (nth_error mask _) as [[|]|]; congruence.
  - intros mask mask' M cel l. destruct (nth_error (af_layers s) _) as [l'|]; [|discriminate].
    destruct (ly_layer_type l'); try discriminate; cbn [chosen];
      destruct (nth_error mask (Z.to_nat (fc_layer_index cel))) as [[|]|] eqn:E; try discriminate; rewrite (M _ E); congruence.
Qed.

(** An opaque layer of mode colour, and a half transparent one below it *)
Definition thin : bytes := hdr 1 32 1 1 ++
  frm [layer_ch 1 0 0 255 [97]; layer_ch 1 0 14 255 [98]; raw_cel_ch 0 0 0 255 1 1 [0; 0; 0; 128]; raw_cel_ch 1 0 0 255 1 1 [10; 20; 30; 255]].
Lemma fewer_opaque inflate w : w = 32 \/ w = 64 ->
  let c := {| debug := false; usize_bits := w |} in
  exists i s, is_bytes i /\ addressable c i /\ load c i = Ok s /\
    render_frame c inflate s 0 [0; 0; 0; 0] (SelMask [false; true]) = Ok [10; 20; 30; 255] /\
    render_frame c inflate s 0 [0; 0; 0; 0] SelAll = Ok [2; 5; 7; 159].
Proof.
  intros W c. exists thin. unfold c. destruct W as [-> | ->]; eexists;
    (split; [apply bytes_by_compute; reflexivity|]); (split; [vm_compute; reflexivity|]); (split; [vm_compute; reflexivity|]);
    (split; [vm_compute; reflexivity|]); vm_compute; reflexivity.
Qed.
