(** Rendering a frame in two steps. *)
From Coq Require Import Sorting.Sorted.
From Verif.Model Require Import Loader.
From Verif.Spec Require Import Bytes FileSpec LoaderSpec ImageSpec RenderSpec.
From Verif.Proofs Require Import FileFacts FileProps LoaderFacts LoaderProps FileFinal ImageProps RenderFacts RenderProps.

Definition below_of (a b : frame_cel) : Prop := fc_layer_index a < fc_layer_index b.

Lemma somes_sorted l : forall n : nat, (forall j x, nth_error l j = Some (Some x) -> cc_layer_index x = Z.of_nat (n + j)) ->
  let fl := flat_map (fun o => match o with Some x => [x] | None => [] end) l in
  Forall (fun x => Z.of_nat n <= cc_layer_index x) fl /\
  StronglySorted (fun x y => cc_layer_index x < cc_layer_index y) fl.
Proof.
  induction l as [|o l IH]; intros n H; cbn [flat_map]; [split; constructor|].
  destruct (IH (S n)) as [H1 H2]. { intros j x Hj. rewrite (H (S j) x Hj). lia. }
  destruct o as [x|]; cbn [app].
  - pose proof (H O x eq_refl) as E. split.
    + constructor; [lia|]. eapply Forall_impl; [|exact H1]. intros y Hy. cbv beta in *. lia.
    + constructor; [exact H2|]. eapply Forall_impl; [|exact H1]. intros y Hy. cbv beta in *. lia.
  - split; [|exact H2]. eapply Forall_impl; [|exact H1]. intros y Hy. cbv beta in *. lia.
Qed.

Lemma sorted_transfer {A B} (f : A -> Z) (g : B -> Z) la lb : Forall2 (fun a b => g b = f a) la lb ->
  StronglySorted (fun x y => f x < f y) la -> StronglySorted (fun x y => g x < g y) lb.
Proof.
  induction 1 as [|a b la lb E H IH]; intros Hs; [constructor|]. inversion Hs as [|? ? Hs1 Hs2]; subst.
  constructor; [now apply IH|]. clear IH Hs Hs1. induction H as [|a' b' la lb E' H IH]; [constructor|].
  inversion Hs2; subst. constructor; [lia|]. now apply IH.
Qed.

Lemma frame_sorted c i s k sf : cfg_ok c -> is_bytes i -> addressable c i -> load c i = Ok s ->
  nth_error (api_frames s) k = Some sf -> StronglySorted below_of (sf_cels sf).
Proof.
  intros Hc Hi Ha Hl Hk. destruct (cels_shown c i s k sf Hc Hi Ha Hl Hk) as (fr & Hfr & HF & _).
  apply (sorted_transfer cc_layer_index fc_layer_index (filled fr)).
  - clear -HF. induction HF as [|x fc xs fcs [_ H] HF IH]; constructor; assumption.
  - destruct (somes_sorted (fr_cels fr) 0) as [_ H]; [|exact H].
    intros j x Hj. cbn [Nat.add]. eapply slots_index; [exact Hc|exact Hi|exact Ha|eapply loaded_parse, Hl|eapply nth_error_In, Hfr|exact Hj].
Qed.

Lemma frame_nonneg c i s k sf : cfg_ok c -> is_bytes i -> addressable c i -> load c i = Ok s ->
  nth_error (api_frames s) k = Some sf -> Forall (fun cel => 0 <= fc_layer_index cel) (sf_cels sf).
Proof.
  intros Hc Hi Ha Hl Hk. destruct (cels_shown c i s k sf Hc Hi Ha Hl Hk) as (fr & Hfr & HF & _).
  assert (G : Forall (fun x => 0 <= cc_layer_index x) (filled fr)).
  { destruct (somes_sorted (fr_cels fr) 0) as [H _]; [|exact H].
    intros j x Hj. cbn [Nat.add]. eapply slots_index; [exact Hc|exact Hi|exact Ha|eapply loaded_parse, Hl|eapply nth_error_In, Hfr|exact Hj]. }
  clear -HF G. induction HF as [|x fc xs fcs [_ H] HF IH]; constructor; inversion G; subst; [lia|auto].
Qed.

Lemma sorted_split (n : Z) cels : StronglySorted below_of cels ->
  exists lo hi, cels = lo ++ hi /\ Forall (fun cel => fc_layer_index cel < n) lo /\ Forall (fun cel => n <= fc_layer_index cel) hi.
Proof.
  induction 1 as [|cel cels Hs IH Hall]; [exists [], []; repeat split; constructor|].
  destruct (Z.lt_ge_cases (fc_layer_index cel) n) as [H|H].
  - destruct IH as (lo & hi & E & Hlo & Hhi). exists (cel :: lo), hi. rewrite E. repeat split; auto.
  - exists [], (cel :: cels). repeat split; [constructor|]. constructor; [exact H|].
    eapply Forall_impl; [|exact Hall]. intros x Hx. unfold below_of in Hx. cbv beta in *. lia.
Qed.

Lemma two_steps c i s : cfg_ok c -> is_bytes i -> addressable c i -> load c i = Ok s ->
  forall inflate, inflate_ok inflate -> sprite_fits c s ->
  forall sel below above n,
  (forall j l, nth_error (api_layers s) j = Some l ->
     chosen below (Z.of_nat j) l = (Z.of_nat j <? n) && chosen sel (Z.of_nat j) l /\
     chosen above (Z.of_nat j) l = negb (Z.of_nat j <? n) && chosen sel (Z.of_nat j) l) ->
  forall k sf target, nth_error (api_frames s) k = Some sf -> is_bytes target ->
  render_frame c inflate s (Z.of_nat k) target sel =
  match render_frame c inflate s (Z.of_nat k) target below with
  | Ok r => render_frame c inflate s (Z.of_nat k) r above
  | Err e => Err e
  | Panic q => Panic q
  end.
Proof.
  intros Hc Hi Ha Hl inflate Hinf Hfit sel below above n Hch k sf t Hk Hb.
  rewrite (render_frame_eq c i s Hc Hi Ha Hl inflate Hfit sel k sf t Hk).
  rewrite (render_frame_eq c i s Hc Hi Ha Hl inflate Hfit below k sf t Hk).
  destruct (Z.ltb_spec (zlen t) (canvas_size s)) as [H|H]; [reflexivity|].
  pose proof (frame_cels_ok c i s Hc Hi Ha Hl k sf Hk) as Hok.
  pose proof (frame_nonneg c i s k sf Hc Hi Ha Hl Hk) as Hnn.
  pose proof (cels_outcome c i s Hc Hi Ha Hl inflate Hinf Hfit below _ Hok t Hb H) as G.
  assert (D : forall cel, 0 <= fc_layer_index cel ->
    drawn s below cel = (if fc_layer_index cel <? n then drawn s sel cel else None) /\
    drawn s above cel = (if fc_layer_index cel <? n then None else drawn s sel cel)).
  { intros cel H0. unfold drawn. destruct (nth_error (af_layers s) (Z.to_nat (fc_layer_index cel))) as [l|] eqn:E.
    2:{ split; now destruct (_ <? _). }
    destruct (Hch _ l E) as [H1 H2]. rewrite Z2Nat.id in H1, H2 by exact H0. rewrite H1, H2.
    split; destruct (ly_layer_type l), (fc_layer_index cel <? n); reflexivity. }
  assert (K : forall sel1 sel2 cel t, cel_ok s cel -> drawn s sel1 cel = drawn s sel2 cel ->
    render_cel c inflate s sel1 t cel = render_cel c inflate s sel2 t cel).
  { intros sel1 sel2 cel t0 Hcel E. rewrite !(render_cel_eq c i s Hc Hi Ha Hl inflate Hfit) by exact Hcel. now rewrite E. }
  assert (N : forall sel1 cel t, cel_ok s cel -> drawn s sel1 cel = None -> render_cel c inflate s sel1 t cel = Ok t).
  { intros sel1 cel t0 Hcel E. rewrite (render_cel_eq c i s Hc Hi Ha Hl inflate Hfit) by exact Hcel. now rewrite E. }
  assert (Same : forall sel1 sel2 cels, Forall (cel_ok s) cels -> Forall (fun cel => drawn s sel1 cel = drawn s sel2 cel) cels ->
    forall t, fold_out (render_cel c inflate s sel1) cels t = fold_out (render_cel c inflate s sel2) cels t).
  { induction 1 as [|cel cels Hcel Hcels IH]; intros HD t0; [reflexivity|]. inversion HD; subst. cbn [fold_out].
    rewrite (K sel1 sel2) by assumption. destruct (render_cel c inflate s sel2 t0 cel); cbn [bind]; try reflexivity. now apply IH. }
  assert (None' : forall sel1 cels, Forall (cel_ok s) cels -> Forall (fun cel => drawn s sel1 cel = None) cels ->
    forall t, fold_out (render_cel c inflate s sel1) cels t = Ok t).
  { induction 1 as [|cel cels Hcel Hcels IH]; intros HD t0; [reflexivity|]. inversion HD; subst. cbn [fold_out].
    rewrite N by assumption. cbn [bind]. now apply IH. }
  destruct (sorted_split n (sf_cels sf) (frame_sorted c i s k sf Hc Hi Ha Hl Hk)) as (lo & hi & E & Hlo & Hhi).
  rewrite E in *. apply Forall_app in Hok as [Hok1 Hok2], Hnn as [Hn1 Hn2].
  assert (L : Forall (fun cel => drawn s sel cel = drawn s below cel) lo /\ Forall (fun cel => drawn s above cel = None) lo).
  { split; apply Forall_forall; intros cel Hcel; rewrite Forall_forall in Hlo, Hn1;
      destruct (D cel (Hn1 cel Hcel)) as [D1 D2]; pose proof (Hlo cel Hcel); cbv beta in *;
      replace (fc_layer_index cel <? n) with true in * by lia; congruence. }
  assert (U : Forall (fun cel => drawn s sel cel = drawn s above cel) hi /\ Forall (fun cel => drawn s below cel = None) hi).
  { split; apply Forall_forall; intros cel Hcel; rewrite Forall_forall in Hhi, Hn2;
      destruct (D cel (Hn2 cel Hcel)) as [D1 D2]; pose proof (Hhi cel Hcel); cbv beta in *;
      replace (fc_layer_index cel <? n) with false in * by lia; congruence. }
  destruct L as [L1 L2], U as [U1 U2].
  rewrite !fold_out_app in *. rewrite (Same sel below lo Hok1 L1).
  destruct (fold_out (render_cel c inflate s below) lo t) as [r|e|q]; cbn [bind] in *; try reflexivity.
  rewrite (None' below hi Hok2 U2) in *.
  rewrite (render_frame_eq c i s Hc Hi Ha Hl inflate Hfit above k sf r Hk). destruct G as [G _]. rewrite G.
  replace (_ <? _) with false by lia. rewrite E, fold_out_app, (None' above lo Hok1 L2). cbn [bind]. apply Same; assumption.
Qed.
