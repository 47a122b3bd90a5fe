(** A frame that repeats another one by links (C125). *)
From Verif.Model Require Import Loader Hasher.
From Verif.Spec Require Import Bytes Format ImageSpec RenderSpec LoaderSpec Patch Held.
From Verif.Proofs Require Import HeldProps.
From Verif.Tests Require Import Configs Build.

(** ** C125 *)
(** A frame of links to the images that the cels of frame [k] show can be written
    after the file, with any duration.  It looks like frame [k] and has the same
    hash; everything else is as it was. *)
Theorem C125_held : forall c i s k sf es d, cfg_ok c -> is_bytes i -> load c i = Ok s -> nth_error (af_frames s) k = Some sf ->
  links s sf es -> u16 d -> u32 (zlen (hold d es)) -> addressable c (i ++ hold d es) ->
  exists s', load c (i ++ hold d es) = Ok s' /\ same_outline s s' /\ af_images s' = af_images s /\
    af_frames s' = af_frames s ++ [with_duration sf d] /\
    forall inflate hasher,
      (forall target sel, render_frame c inflate s' (zlen (af_frames s)) target sel = render_frame c inflate s (Z.of_nat k) target sel) /\
      (forall target, combined_frame_image c inflate hasher s' (zlen (af_frames s)) target =
                      combined_frame_image c inflate hasher s (Z.of_nat k) target).
Proof. exact held_frame. Qed.
Print Assumptions C125_held.

(** There are such links, 24 bytes for each cel, unless the file has more frames
    than links can name. *)
Theorem C125_links : forall c i s k sf, cfg_ok c -> is_bytes i -> addressable c i -> load c i = Ok s ->
  nth_error (af_frames s) k = Some sf -> zlen (af_frames s) <= 65536 ->
  exists es, links s sf es /\ zlen (concat es) = 24 * zlen (sf_cels sf).
Proof. exact links_exist. Qed.
Print Assumptions C125_links.

(** The second of these frames links to the first and has an image of its own; the
    third repeats it. *)
Definition two : bytes :=
  hdr 2 32 2 1 ++
  frm [layer_ch 1 0 0 255 [97]; layer_ch 1 0 0 255 [98]; raw_cel_ch 0 0 0 255 1 1 [1; 2; 3; 4]; raw_cel_ch 1 0 0 255 1 1 [9; 9; 9; 9]] ++
  frm [linked_cel_ch 0 1 0 0; raw_cel_ch 1 (-1) 0 255 2 1 [0; 0; 0; 0; 5; 6; 7; 255]].
Definition no_inflate : inflater := fun _ _ => (ZError, []).
Example C125_example : exists s sf es s', load dbg64 two = Ok s /\ nth_error (af_frames s) 1 = Some sf /\ links s sf es /\
  es = [linked_cel_ch 0 1 0 0; linked_cel_ch 1 (-1) 0 1] /\
  load dbg64 (two ++ hold 7 es) = Ok s' /\ map sf_duration (af_frames s') = [100; 100; 7] /\
  map (fun k => combined_frame_image dbg64 no_inflate (default_hasher dbg64) s' k (repeat 0 8)) [0; 1; 2] =
    [Ok ([6; 6; 7; 13; 0; 0; 0; 0], 18250709572386406001); Ok ([5; 6; 7; 255; 1; 2; 3; 4], 14872383664233676645);
     Ok ([5; 6; 7; 255; 1; 2; 3; 4], 14872383664233676645)].
Proof.
  destruct (load dbg64 two) as [s| |] eqn:L; [|vm_compute in L; discriminate..]. vm_compute in L. injection L as <-.
  do 4 eexists. split; [reflexivity|]. split; [reflexivity|]. split; [|split; [reflexivity|]].
  { repeat constructor; eexists; (split; [|split; [eexists; vm_compute; reflexivity|vm_compute; reflexivity]]); unfold u16, uint; lia. }
  split; [vm_compute; reflexivity|]. split; vm_compute; reflexivity.
Qed.
