(** Files with anything in them that were written and are loaded. *)
From Verif.Model Require Import Loader.
From Verif.Spec Require Import Bytes Format Encode FileSpec LoaderSpec Loads.
From Verif.Proofs Require Import ParseLib RawFacts EncodeProps WriterFinal LoaderFacts LoadsProps.

Lemma written_reads c raw : cfg_ok c -> wf_file raw -> addressable c (enc_file raw) ->
  is_bytes (enc_file raw) /\ parse_raw_file c (enc_file raw) = Ok raw /\ raw_file_l (kept_error c) raw (enc_file raw).
Proof.
  intros Hc Hw Ha.
  assert (B : is_bytes (enc_file raw)) by apply (file_writes not_maps _ Hw).
  pose proof (write_read c raw Hc Hw Ha) as E. split; [exact B|]. split; [exact E|].
  now apply parse_raw_file_iff.
Qed.

Lemma load_written c raw s : cfg_ok c -> wf_file raw -> addressable c (enc_file raw) ->
  (load c (enc_file raw) = Ok s <-> stands_for raw s).
Proof.
  intros Hc Hw Ha. destruct (written_reads c raw Hc Hw Ha) as (B & E & R).
  rewrite (load_exactly c _ s Hc B Ha). split; [|eauto].
  intros (raw' & R' & H). apply parse_raw_file_iff in R'; [|assumption..]. congruence.
Qed.

Lemma list_first_wrong fs l :
  Forall (fun '(k, x) => forall e, ~ cel_wrong fs k x e) l \/
  exists before k x after e, l = before ++ (k, x) :: after /\ cel_wrong fs k x e /\
    Forall (fun '(k, x) => forall e, ~ cel_wrong fs k x e) before.
Proof.
  induction l as [|[k x] l IH]; [left; constructor|].
  destruct (cel_problem_one fs (k, x)) as [E|[e E]].
  - assert (N : forall e, ~ cel_wrong fs k x e) by (intros e He; apply cel_wrong_problem in He; congruence).
    destruct IH as [IH|(b & k' & x' & a & e & -> & H1 & H2)]; [left; now constructor|right].
    exists ((k, x) :: b), k', x', a, e. split; [reflexivity|]. split; [exact H1|]. now constructor.
  - right. exists [], k, x, l, e. split; [reflexivity|]. split; [now apply cel_wrong_problem|constructor].
Qed.

Lemma load_writable c raw : cfg_ok c -> wf_file raw -> addressable c (enc_file raw) ->
  ((exists s, load c (enc_file raw) = Ok s) <-> usable raw).
Proof.
  intros Hc Hw Ha. destruct (written_reads c raw Hc Hw Ha) as (B & E & R).
  assert (U : forall raw', raw_file_l (kept_error c) raw' (enc_file raw) -> raw' = raw).
  { intros raw' R'. apply parse_raw_file_iff in R'; [|assumption..]. congruence. }
  assert (W : forall f, complete_file raw f <-> parse_file c (enc_file raw) = Ok f).
  { intro f. rewrite (parse_file_complete c _ f Hc B Ha). split; [eauto|]. intros (raw' & R' & H). now rewrite <- (U _ R'). }
  split.
  - intros [s Hs]. apply (load_ok c) in Hs as Hp. destruct Hp as [Hp _]. exists (af_file s). split; [now apply W|].
    apply Forall_forall. intros [k x] Hin e He. apply in_split in Hin as (p & q & Hpq).
    destruct (list_first_wrong (f_frames (af_file s)) (p ++ (k, x) :: q)) as [H|(b & k' & x' & a & e' & H1 & H2 & H3)].
    + rewrite Forall_forall in H. apply (H (k, x)) with (e := e); [|exact He]. apply in_or_app. right. now left.
    + assert (load c (enc_file raw) = Err e'); [|congruence].
      apply (load_refused c _ _ Hc B Ha). right. exists raw, (af_file s), b, k', x', a.
      split; [exact R|]. split; [now apply W|]. split; [congruence|]. auto.
  - intros (f & Hf & Hn). destruct (load c (enc_file raw)) as [s|e|q] eqn:L; [eauto| |].
    + exfalso. apply W in Hf as Hp. apply (load_refused c _ _ Hc B Ha) in L as [(x & _ & Hx)|(raw' & f' & b & k & x & a & R' & Hf' & H1 & H2 & H3)];
        [congruence|]. apply U in R' as ->. apply W in Hf'. assert (f' = f) as -> by congruence.
      rewrite Forall_forall in Hn. apply (Hn (k, x)) with (e := e); [|exact H2]. rewrite H1. apply in_or_app. right. now left.
    + exfalso. apply load_panic in L. apply W in Hf. congruence.
Qed.

Lemma sprite_range c s : cfg_ok c ->
  ((exists raw, wf_file raw /\ addressable c (enc_file raw) /\ stands_for raw s) <->
   exists i raw, is_bytes i /\ addressable c i /\ parse_raw_file c i = Ok raw /\ no_map_error raw /\ load c i = Ok s).
Proof.
  intro Hc. split.
  - intros (raw & Hw & Ha & Hs). destruct (written_reads c raw Hc Hw Ha) as (B & E & R).
    exists (enc_file raw), raw. split; [exact B|]. split; [exact Ha|]. split; [exact E|].
    split; [|now apply load_written].
    exact (proj1 (proj1 (parser_range c raw Hc) (conj Hw Ha))).
  - intros (i & raw & Hi & Ha & E & Hn & Hl). exists raw.
    destruct (proj2 (parser_range c raw Hc)) as [Hw Ha']; [split; [exact Hn|eauto]|].
    split; [exact Hw|]. split; [exact Ha'|]. apply (load_exactly c i s Hc Hi Ha) in Hl as (raw' & R & Hs).
    apply parse_raw_file_iff in R; [|assumption..]. congruence.
Qed.
