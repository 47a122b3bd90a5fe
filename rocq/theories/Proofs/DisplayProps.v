(** The texts written by [Display]; lengths of all messages of [load]. *)
From Coq Require Import String.
From Verif.Model Require Import Loader Messages.
From Verif.Spec Require Import Bytes Format FileSpec LoaderSpec Size Errors Messages Loads.
From Verif.Proofs Require Import ParseLib LoaderFacts LoaderProps FileProps BinaryFinal FileFinal SizeProps DrawingProps MessageProps LoadsProps.
From Verif.Tests Require Import Build.
Local Open Scope Z_scope.
Local Open Scope list_scope.

Lemma palette_display_inj e e' : palette_error_display e = palette_error_display e' -> e = e'.
Proof. destruct e, e'; intro H; first [reflexivity|vm_compute in H; discriminate H]. Qed.
Lemma image_display_inj e e' : load_image_error_display e = load_image_error_display e' -> e = e'.
Proof. destruct e, e'; intro H; first [reflexivity|vm_compute in H; discriminate H]. Qed.
Lemma parse_display_kind e e' : parse_error_display e = parse_error_display e' <-> same_kind e e'.
Proof.
  destruct e, e'; cbn [same_kind]; (split; intro H; first [exact I|reflexivity|contradiction|exfalso; vm_compute in H; discriminate H]).
Qed.
(** Two files with different mistakes *)
Lemma parse_display_lost c : cfg_ok c -> exists i i' e e',
  is_bytes i /\ is_bytes i' /\ addressable c i /\ addressable c i' /\
  parse_file c i = Err (NFailure e) /\ parse_file c i' = Err (NFailure e') /\
  e <> e' /\ parse_error_display e = parse_error_display e'.
Proof.
  intro Hc.
  exists (hdr 1 32 1 1 ++ [2; 0; 0; 0]), (hdr 1 32 1 1 ++ [3; 0; 0; 0]), (EInvalidFrameSize 2), (EInvalidFrameSize 3).
  split; [apply bytes_by_compute; vm_compute; reflexivity|]. split; [apply bytes_by_compute; vm_compute; reflexivity|].
  destruct c as [d w]. unfold cfg_ok in Hc. cbn [usize_bits] in Hc. unfold addressable. cbn [usize_bits].
  split; [destruct Hc as [-> | ->]; vm_compute; reflexivity|]. split; [destruct Hc as [-> | ->]; vm_compute; reflexivity|].
  split; [destruct Hc as [-> | ->], d; vm_compute; reflexivity|]. split; [destruct Hc as [-> | ->], d; vm_compute; reflexivity|].
  split; [discriminate|reflexivity].
Qed.

Lemma decimal_short z : 0 <= z -> zlen (decimal z) <= z + 1.
Proof.
  intro H. apply decimal_length; [|lia]. split; [exact H|].
  assert (z + 1 < 10 ^ (z + 1)) by (apply Z.pow_gt_lin_r; lia). lia.
Qed.
Lemma cel_numbers c i f k x : cfg_ok c -> is_bytes i -> addressable c i -> parse_file c i = Ok f ->
  In (k, x) (file_cels (f_frames f)) -> 0 <= k < zlen (f_frames f) /\ 0 <= cc_layer_index x < zlen (f_layers f).
Proof.
  intros Hc Hi Ha Hp Hin. apply in_flat_map in Hin as ([k' fr] & Hf & Hin). apply in_map_iff in Hin as (y & [= -> ->] & Hx).
  split; [apply numbered_ge in Hf; lia|].
  apply numbered_in in Hf as [_ Hf]. apply nth_error_In in Hf.
  unfold filled in Hx. apply in_flat_map in Hx as ([y|] & Ho & Hy); [|destruct Hy]. destruct Hy as [->|[]].
  apply In_nth_error in Ho as [j Hj]. rewrite (slots_index c i f fr j x Hc Hi Ha Hp Hf Hj).
  assert (L : zlen (fr_cels fr) = zlen (f_layers f)).
  { destruct (FileFinal.cel_slots c i f Hc Hi Ha Hp) as (raw & _ & HF & _). clear -HF Hf.
    induction HF as [|a b l l' (_ & H & _) HF IH]; [destruct Hf|]. destruct Hf as [->|Hf]; auto. }
  assert (j < List.length (fr_cels fr))%nat by (apply nth_error_Some; congruence). unfold zlen in *. lia.
Qed.

Lemma load_message_length c i e : cfg_ok c -> is_bytes i -> addressable c i -> load c i = Err e ->
  zlen (message e) <= 5 * zlen i + 100.
Proof.
  intros Hc Hi Ha H. apply load_refused in H as [(x & -> & Hx)|(raw & f & b & k & x & a & R & Hf & H1 & H2 & _)]; [|..|assumption|assumption|assumption].
  - now apply (message_length c).
  - assert (Hp : parse_file c i = Ok f) by (apply (parse_file_complete c i f Hc Hi Ha); eauto).
    assert (Hin : In (k, x) (file_cels (f_frames f))) by (rewrite H1; apply in_or_app; right; now left).
    destruct (cel_numbers c i f k x Hc Hi Ha Hp Hin) as [K L]. destruct (file_slots c i f Hc Hi Ha Hp) as [_ S].
    unfold cel_wrong in H2. destruct (cc_content x); try contradiction; try (subst e; cbn [message]; lengths; unfold zlen; lia).
    destruct H2 as [_ ->]. cbn [message]. lengths.
    pose proof (decimal_short k ltac:(lia)). pose proof (decimal_short (cc_layer_index x) ltac:(lia)). lia.
Qed.
