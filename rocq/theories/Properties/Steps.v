(** The time reading a file takes (C139). *)
From Verif.Model Require Import Steps.
From Verif.Spec Require Import Bytes Format.
From Verif.Proofs Require Import StepsProps.
From Verif.Tests Require Import Configs Build.

(** ** C139 *)
(** Reading a file takes a number of steps (calls of nom's basic parsers, rounds
    of loops, bytes checked for UTF-8) at most five times its length, plus five,
    whatever the file claims: no count or size written in it, and no nesting of
    what is in it, makes the reader loop for longer than the file is long.  This
    holds for all inputs, whether reading succeeds, fails or panics.  The counted
    reader gives the outcome of the model's reader. *)
Theorem C139_steps : forall c i,
  snd (n_parse_raw_file c i) = parse_raw_file c i /\
  0 <= fst (n_parse_raw_file c i) <= 5 * zlen i + 5.
Proof. exact raw_file_steps. Qed.
Print Assumptions C139_steps.

(** Two frames, read to the end. *)
Definition plain_file : bytes :=
  hdr 2 32 1 1 ++
  frm [layer_ch 1 0 0 255 [97; 98]; raw_cel_ch 0 0 0 255 1 1 [1; 2; 3; 4]] ++
  frm [linked_cel_ch 0 0 0 0].
Example C139_example : zlen plain_file = 240 /\
  (exists f, parse_raw_file dbg64 plain_file = Ok f /\ length (rw_frames f) = 2%nat) /\
  fst (n_parse_raw_file dbg64 plain_file) = 80.
Proof. split; [vm_compute; reflexivity|]. split; [eexists; split; vm_compute; reflexivity|]. vm_compute. reflexivity. Qed.

(** A frame that claims 60000 chunks, and a vector of vectors that claims 60000
    elements of 60000 booleans each. *)
Definition boastful_file : bytes :=
  hdr 1 32 1 1 ++
  (let ud := encode_chunk 0x2020 (le 4 4 ++
     (let maps := le 4 0 ++ le 4 60000 ++ str [97] ++ le 2 0x11 ++ le 4 60000 ++ le 2 0x11 ++ le 4 60000 ++ le 2 1 ++ [1; 0; 1] in
      le 4 (zlen maps + 8) ++ le 4 60000 ++ maps)) in
   le 4 (zlen ud + 16) ++ le 2 0xF1FA ++ le 2 60000 ++ le 2 100 ++ [0; 0] ++ le 4 60000 ++ ud).
Example C139_boastful : zlen boastful_file = 190 /\
  (exists e, parse_raw_file dbg64 boastful_file = Err e) /\ fst (n_parse_raw_file dbg64 boastful_file) = 60.
Proof. split; [vm_compute; reflexivity|]. split; [eexists; vm_compute; reflexivity|]. vm_compute. reflexivity. Qed.

(** The bound is not a matter of course: if an element can be empty, a count
    written in the file is the number of rounds. *)
Example C139_needed : forall n, fst (n_count (fun i => done (i, tt)) (Z.of_nat n) []) = Z.of_nat n.
Proof.
  intros n. unfold n_count. rewrite Nat2Z.id. induction n as [|n IH]; [reflexivity|].
  cbn [n_count_nat]. unfold nbind at 1, steps. cbn [step done fst snd]. unfold nbind, steps.
  destruct (n_count_nat _ n _) as [k [[? ?]|?|?]] eqn:E; cbn [fst snd done] in *; lia.
Qed.
