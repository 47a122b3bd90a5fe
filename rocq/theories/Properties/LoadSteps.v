(** The time loading takes (C142). *)
From Verif.Model Require Import LoadSteps.
From Verif.Spec Require Import Bytes Size.
From Verif.Proofs Require Import LoadStepsProps.
From Verif.Tests Require Import Configs Build.

(** ** C142 *)
(** Loading a file takes at most thirteen steps for every byte, plus five, plus a
    five hundred and twelfth of the square of its length, whatever the file
    claims, and whether loading succeeds, fails or panics.  The counted loader
    gives the outcome of the model's loader. *)
Theorem C142_steps : forall c i, cfg_ok c -> is_bytes i -> addressable c i ->
  snd (k_load c i) = load c i /\ 0 <= fst (k_load c i) <= 13 * zlen i + 5 + zlen i * zlen i / 512.
Proof. exact load_steps. Qed.
Print Assumptions C142_steps.

(** What is not linear are three rounds for every place for a cel (a frame has one
    for every layer): one to make it, and two to look for cels. *)
Theorem C142_places : forall c i s, cfg_ok c -> is_bytes i -> addressable c i -> load c i = Ok s ->
  3 * cel_slots (af_file s) <= fst (k_load c i) <= 13 * zlen i + 5 + 3 * cel_slots (af_file s).
Proof. exact load_places. Qed.
Print Assumptions C142_places.

(** The square cannot be avoided: there are files of [128 + 40 * n] bytes that take
    [3 * n * n] steps. *)
Theorem C142_square : forall c n, cfg_ok c -> 0 < n -> 128 + 40 * n < 2 ^ (usize_bits c - 1) ->
  exists i s, is_bytes i /\ zlen i = 128 + 40 * n /\ load c i = Ok s /\ 3 * (n * n) <= fst (k_load c i).
Proof. exact load_square. Qed.
Print Assumptions C142_square.

(** Indexed colours, two layers, three frames, a tag and a link. *)
Definition small_file : bytes := hdr 3 8 1 1 ++
  frm [palette_ch 2 0 1 [(1, 2, 3, 4); (5, 6, 7, 8)]; layer_ch 1 0 0 255 [97]; layer_ch 1 0 0 255 [98];
       tags_ch [(0, 1, [99])]; raw_cel_ch 1 0 0 255 1 1 [1]] ++
  frm [linked_cel_ch 1 0 0 0] ++ frm [].
Example C142_example : zlen small_file = 351 /\
  (exists s, load dbg64 small_file = Ok s /\ cel_slots (af_file s) = 6) /\
  fst (n_parse_raw_file dbg64 small_file) = 139 /\ fst (k_parse_file dbg64 small_file) = 173 /\ fst (k_load dbg64 small_file) = 194.
Proof. split; [vm_compute; reflexivity|]. split; [eexists; split; vm_compute; reflexivity|]. repeat split; vm_compute; reflexivity. Qed.

(** A link to a frame that has no such cel: an error in the last stage. *)
Definition broken_file : bytes := hdr 2 32 1 1 ++
  frm [layer_ch 1 0 0 255 [97]] ++ frm [linked_cel_ch 0 0 0 0].
Example C142_error : zlen broken_file = 209 /\ (exists e, load dbg64 broken_file = Err e) /\
  fst (n_parse_raw_file dbg64 broken_file) = 66 /\ fst (k_load dbg64 broken_file) = 84.
Proof. split; [vm_compute; reflexivity|]. split; [eexists; vm_compute; reflexivity|]. split; vm_compute; reflexivity. Qed.
