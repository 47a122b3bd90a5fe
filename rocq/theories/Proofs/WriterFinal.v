(** The properties C63 and C64 in their final form. *)
From Verif.Model Require Import Loader.
From Verif.Spec Require Import Format Encode Size.
From Verif.Proofs Require Import ParseLib RawFacts EncodeFacts EncodeProps SizeProps.

Lemma slots_refuted c K : cfg_ok c -> 0 <= K <= 1000000 ->
  exists i s, is_bytes i /\ addressable c i /\ load c i = Ok s /\ K * zlen i < cel_slots (af_file s).
Proof.
  intros Hc HK. apply slots_not_linear; [assumption|lia|].
  destruct Hc as [-> | ->]; [change (2 ^ (32 - 1)) with 2147483648|change (2 ^ (64 - 1)) with 9223372036854775808]; lia.
Qed.

Lemma wf_no_error f : wf_file f -> no_map_error f.
Proof.
  intros (_ & _ & H) fr u e H1 H2 E. rewrite Forall_forall in H. destruct (H _ H1) as (_ & HC & _).
  rewrite Forall_forall in HC. destruct (HC _ H2) as [HW _]. cbn in HW. destruct HW as (_ & _ & HW).
  rewrite E in HW. exact HW.
Qed.
Lemma parser_range c f : cfg_ok c ->
  (wf_file f /\ addressable c (enc_file f) <->
   no_map_error f /\ exists i, is_bytes i /\ addressable c i /\ parse_raw_file c i = Ok f).
Proof.
  intro Hc. split.
  - intros [H1 H2]. split; [now apply wf_no_error|]. exists (enc_file f).
    split; [apply (file_writes not_maps _ H1)|]. split; [assumption|]. now apply write_read.
  - intros (Hn & i & Hb & Ha & H). destruct (read_wf c i f) as [A B]; try assumption.
    split; [assumption|]. unfold addressable in *. lia.
Qed.

Lemma load_rewritten c i f : cfg_ok c -> is_bytes i -> addressable c i ->
  parse_raw_file c i = Ok f -> no_map_error f ->
  parse_file c (enc_file f) = parse_file c i /\ load c (enc_file f) = load c i.
Proof.
  intros Hc Hb Ha H Hn. destruct (read_write c i f) as (_ & _ & E); try assumption.
  assert (P : parse_file c (enc_file f) = parse_file c i) by (unfold parse_file; now rewrite E, H).
  split; [exact P|]. unfold load. now rewrite P.
Qed.
