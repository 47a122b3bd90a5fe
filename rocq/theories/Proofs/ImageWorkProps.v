(** Decoding an image, counted. *)
From Coq Require Import Lia.
From Verif.Model Require Import ImageWork.
From Verif.Spec Require Import Bytes ImageSpec Made.
From Verif.Proofs Require Import ParseLib ImageFacts OverlaidProps LoadStepsProps.

Lemma same_gray c source target : snd (k_grayscale_to_rgba c source target) = grayscale_to_rgba c source target.
Proof.
  unfold k_grayscale_to_rgba, grayscale_to_rgba. apply snd_kbind; [reflexivity|intros n]. destruct (negb _); [reflexivity|].
  apply snd_k_fold. intros t [i ch]. do 2 (apply snd_kbind; [reflexivity|intros ?]). reflexivity.
Qed.
Lemma same_indexed c source pal target : snd (k_indexed_to_rgba c source pal target) = indexed_to_rgba c source pal target.
Proof.
  unfold k_indexed_to_rgba, indexed_to_rgba. apply snd_kbind; [reflexivity|intros n]. destruct (negb _); [reflexivity|].
  apply snd_k_fold. intros t [i px]. apply snd_kbind; [reflexivity|intros ?]. reflexivity.
Qed.
Lemma same_decode c inflate f im target : snd (k_decode_image c inflate f im target) = decode_image c inflate f im target.
Proof.
  unfold k_decode_image, decode_image. destruct (h_color_depth _), (im_compressed im); try reflexivity;
    try (destruct (zlen target =? _); reflexivity);
    repeat first [apply same_gray | apply same_indexed | apply snd_kbind; [reflexivity|intros ?]].
Qed.
Lemma same_load_image c inflate s j target : snd (k_load_image c inflate s j target) = load_image c inflate s j target.
Proof.
  unfold k_load_image, load_image. do 3 (apply snd_kbind; [reflexivity|intros ?]). destruct (_ <? _); [reflexivity|].
  cbn [snd]. now rewrite same_decode.
Qed.

(** A loop that writes four bytes in every round ends with the target, if not
    before. *)
Lemma writing_rounds {E B} (f : bytes -> Z * B -> kout E bytes) :
  (forall t i x, fst (f t (i, x)) = 0 /\ forall r, snd (f t (i, x)) = Ok r -> zlen r = zlen t /\ i * 4 + 4 <= zlen t) ->
  forall l k t, let m := k_fold f (combine (map Z.of_nat (seq k (length l))) l) t in
  0 <= fst m <= Z.max 0 (zlen t / 4 - Z.of_nat k) + 1 /\
  forall r, snd m = Ok r -> fst m = zlen l /\ (l = [] \/ 4 * (Z.of_nat k + zlen l) <= zlen t).
Proof.
  intros H. induction l as [|x l IH]; intros k t; cbn zeta.
  { cbn. split; [lia|]. intros r _. split; [reflexivity|now left]. }
  cbn [length seq map combine k_fold]. destruct (H t (Z.of_nat k) x) as [Z0 K]. unfold round, kbind. cbn [fst snd].
  destruct (snd (f t (Z.of_nat k, x))) as [t'|e|p] eqn:E1; cbn [fst snd]; rewrite Z0; [|split; [lia|discriminate]..].
  destruct (K t' eq_refl) as [K1 K2]. destruct (IH (S k) t') as [I1 I2]. rewrite K1 in I1, I2.
  assert (Z.of_nat k + 1 <= zlen t / 4) by (apply Z.div_le_lower_bound; lia). rewrite zlen_cons.
  split; [lia|]. intros r X. destruct (I2 r X) as [I3 I4]. split; [lia|]. right.
  destruct I4 as [-> | I4]; [change (zlen (@nil B)) with 0|]; lia.
Qed.
Lemma set4_inside {E} t k a b x y r : @set4 E t k a b x y = Ok r -> zlen r = zlen t /\ k + 4 <= zlen t.
Proof.
  intros H. split; [now apply set4_keeps in H|]. unfold set4 in H.
  destruct (set_index t k a) as [t1| |] eqn:E1; cbn [bind] in H; try discriminate.
  destruct (set_index t1 (k + 1) b) as [t2| |] eqn:E2; cbn [bind] in H; try discriminate.
  destruct (set_index t2 (k + 2) x) as [t3| |] eqn:E3; cbn [bind] in H; try discriminate.
  apply set_index_length in E1. apply set_index_length in E2. apply set_index_length in E3.
  unfold set_index in H. destruct (_ && _) eqn:B; [lia|discriminate].
Qed.

Lemma zlen_enum {A} (l : list A) : enumerate l = combine (map Z.of_nat (seq 0 (length l))) l.
Proof. reflexivity. Qed.
Lemma chunks2_len l : zlen l <= 2 * zlen (chunks2 l) <= zlen l + 1.
Proof.
  enough (H : forall n l, (length l <= n)%nat -> zlen l <= 2 * zlen (chunks2 l) <= zlen l + 1) by (apply (H (length l)); lia).
  clear l. induction n as [|n IH]; intros l Hn.
  { destruct l; [|cbn in Hn; lia]. unfold zlen. cbn. lia. }
  destruct l as [|a [|b l]]; [unfold zlen; cbn; lia..|]. cbn [chunks2]. rewrite !zlen_cons. cbn [length] in Hn.
  specialize (IH l ltac:(lia)). lia.
Qed.

(** The rounds of a conversion: at most one more than there are pixels in the
    target, and as many as there are if it succeeds. *)
Definition converts (m : kout (load_image_error * bytes) bytes) (target : bytes) : Prop :=
  0 <= fst m <= zlen target / 4 + 1 /\ forall r, snd m = Ok r -> 4 * fst m = zlen target.

Lemma converts_plain {A} (o : out (load_image_error * bytes) A) k target :
  (forall a, o = Ok a -> converts (k a) target) -> converts (kbind (plain o) k) target.
Proof.
  intros K. pose proof (zlen_nonneg target) as Nt. assert (Nd : 0 <= zlen target / 4) by (apply Z.div_pos; lia).
  unfold converts, kbind, plain in *. cbn [fst snd]. destruct o as [a|e|p]; cbn [fst snd].
  - specialize (K a eq_refl). rewrite Z.add_0_l. exact K.
  - split; [lia|discriminate].
  - split; [lia|discriminate].
Qed.
Lemma converts_err e target : converts (plain (Err e)) target.
Proof.
  pose proof (zlen_nonneg target) as Nt. assert (Nd : 0 <= zlen target / 4) by (apply Z.div_pos; lia).
  unfold converts, plain. cbn [fst snd]. split; [lia|discriminate].
Qed.
Lemma converts_fold {B} (f : bytes -> Z * B -> kout (load_image_error * bytes) bytes) l target :
  (forall t i x, fst (f t (i, x)) = 0 /\ forall r, snd (f t (i, x)) = Ok r -> zlen r = zlen t /\ i * 4 + 4 <= zlen t) ->
  (4 * zlen l <= zlen target \/ l = [] -> 4 * zlen l = zlen target) -> converts (k_fold f (enumerate l) target) target.
Proof.
  intros H K. pose proof (zlen_nonneg target) as Nt. assert (Nd : 0 <= zlen target / 4) by (apply Z.div_pos; lia).
  rewrite zlen_enum. destruct (writing_rounds f H l 0%nat target) as [W1 W2]. split; [lia|].
  intros r X. destruct (W2 r X) as [W3 W4]. rewrite W3. apply K. destruct W4; [now right|left; lia].
Qed.
Lemma gray_converts c source target : cfg_ok c -> converts (k_grayscale_to_rgba c source target) target.
Proof.
  intros Hc. pose proof (zlen_nonneg source) as Ns. unfold k_grayscale_to_rgba. apply converts_plain. intros n U.
  destruct (Z.eqb_spec (zlen target) n) as [Et|N]; cbn [negb]; [|apply converts_err].
  apply usizec_le in U; [|assumption|lia]. pose proof (chunks2_len source) as L.
  apply converts_fold.
  - intros t i ch. unfold kbind, plain. destruct (get_index ch 0); [|split; [reflexivity|discriminate]..]. cbn [fst snd].
    destruct (get_index ch 1); [|split; [reflexivity|discriminate]..]. cbn [fst snd].
    split; [reflexivity|]. intros r X. now apply set4_inside in X.
  - unfold zlen, bytes in *. intros [K|K]; [lia|]. rewrite K in *. cbn [length] in *. lia.
Qed.
Lemma indexed_converts c source pal target : cfg_ok c -> converts (k_indexed_to_rgba c source pal target) target.
Proof.
  intros Hc. pose proof (zlen_nonneg source) as Ns. unfold k_indexed_to_rgba. apply converts_plain. intros n U.
  destruct (Z.eqb_spec (zlen target) n) as [Et|N]; cbn [negb]; [|apply converts_err].
  apply usizec_le in U; [|assumption|lia]. apply converts_fold.
  - intros t i px. unfold kbind, plain. destruct (get_index pal px); [|split; [reflexivity|discriminate]..]. cbn [fst snd].
    split; [reflexivity|]. intros r X. now apply set4_inside in X.
  - intros [K|K]; [lia|]. rewrite K in *. change (zlen (@nil Z)) with 0 in *. lia.
Qed.

Definition rounds_for (d : color_depth) (n : Z) : Z := match d with Grayscale | Indexed => n | _ => 0 end.

Lemma decode_count c inflate f im target : cfg_ok c ->
  let m := k_decode_image c inflate f im target in
  0 <= fst m <= zlen target / 4 + 1 /\
  forall r, snd m = Ok r -> 4 * fst m = rounds_for (h_color_depth (f_header f)) (zlen target).
Proof.
  intros Hc. cbn zeta. pose proof (zlen_nonneg target) as Nt. assert (Nd : 0 <= zlen target / 4) by (apply Z.div_pos; lia).
  unfold k_decode_image, rounds_for. destruct (h_color_depth (f_header f)), (im_compressed im);
    try match goal with |- context [k_grayscale_to_rgba] => repeat first [now apply gray_converts | apply converts_plain; intros ? _] end;
    try match goal with |- context [k_indexed_to_rgba] => repeat first [now apply indexed_converts | apply converts_plain; intros ? _] end.
  all: try (destruct (zlen target =? _)); cbn [plain fst snd]; split; try lia; intros; try discriminate; reflexivity.
Qed.

Theorem image_count : forall c inflate s j im target, cfg_ok c -> typed c s -> nth_error (af_images s) j = Some im ->
  let m := k_load_image c inflate s (Z.of_nat j) target in
  snd m = load_image c inflate s (Z.of_nat j) target /\ 0 <= fst m <= im_width im * im_height im + 1 /\
  (rgba_size im < 2 ^ usize_bits c -> forall r, load_image c inflate s (Z.of_nat j) target = Ok r ->
     fst m = rounds_for (h_color_depth (f_header (af_file s))) (im_width im * im_height im)).
Proof.
  intros c inflate s j im target Hc T E. cbn zeta. split; [apply same_load_image|].
  rewrite <- same_load_image.
  destruct T as (_ & _ & _ & T & _). rewrite Forall_forall in T. destruct (T im (nth_error_In _ _ E)) as ([W0 _] & [H0 _] & _).
  assert (N : 0 <= im_width im * im_height im) by (apply Z.mul_nonneg_nonneg; assumption).
  unfold k_load_image.
  replace (get_index (af_images s) (Z.of_nat j)) with (@Ok (load_image_error * bytes) _ im).
  2:{ unfold get_index. rewrite Nat2Z.id, E. assert (0 <=? Z.of_nat j = true) as -> by lia. reflexivity. }
  unfold kbind, plain. cbn [fst snd].
  destruct (usizec c (im_width im * im_height im)) as [n|e|p] eqn:U1; cbn [fst snd]; [|split; [lia|discriminate]..].
  destruct (usizec c (n * 4)) as [ts|e|p] eqn:U2; cbn [fst snd]; [|split; [lia|discriminate]..].
  pose proof (usizec_le _ _ _ Hc N U1) as [B1 B2]. assert (0 <= n * 4) as B3 by lia. pose proof (usizec_le _ _ _ Hc B3 U2) as [B4 B5].
  destruct (Z.ltb_spec (zlen target) ts); cbn [fst snd]; [split; [lia|discriminate]|].
  set (t := firstn (Z.to_nat ts) target). assert (Lt : zlen t = ts).
  { unfold t, zlen in *. rewrite firstn_length. lia. }
  destruct (decode_count c inflate (af_file s) im t Hc) as [D1 D2]. rewrite Lt in D1, D2.
  assert (ts / 4 <= im_width im * im_height im) by (apply Z.div_le_upper_bound; lia).
  rewrite !Z.add_0_l. split; [lia|]. intros Hf r X. unfold rgba_size in Hf.
  destruct (snd (k_decode_image c inflate (af_file s) im t)) as [y|[e y]|p]; cbn [with_tail] in X; try discriminate.
  specialize (D2 y eq_refl). rewrite usizec_id in U1 by lia. injection U1 as <-. rewrite usizec_id in U2 by lia. injection U2 as <-.
  unfold rounds_for in *. destruct (h_color_depth _); lia.
Qed.
