(** What decoding an image takes (C143). *)
From Verif.Model Require Import ImageWork.
From Verif.Spec Require Import Bytes ImageSpec Made.
From Verif.Proofs Require Import ImageWorkProps.
From Verif.Tests Require Import Configs Build.

(** ** C143 *)
(** Loading an image goes through the image's pixels at most once (plus one round
    that panics), whatever the data of the image are and whether loading succeeds,
    fails or panics.  If it succeeds, greyscale and indexed images take one round
    for every pixel, and RGBA images none.  The counted decoder gives the outcome
    of the model's decoder. *)
Theorem C143_rounds : forall c inflate s j im target, cfg_ok c -> typed c s -> nth_error (af_images s) j = Some im ->
  let m := k_load_image c inflate s (Z.of_nat j) target in
  snd m = load_image c inflate s (Z.of_nat j) target /\ 0 <= fst m <= im_width im * im_height im + 1 /\
  (rgba_size im < 2 ^ usize_bits c -> forall r, load_image c inflate s (Z.of_nat j) target = Ok r ->
     fst m = match h_color_depth (f_header (af_file s)) with
             | Grayscale | Indexed => im_width im * im_height im
             | _ => 0
             end).
Proof. exact image_count. Qed.
Print Assumptions C143_rounds.

Definition idle : inflater := fun _ _ => (ZError, []).
(** The rounds for the first image of a file, and whether it loads *)
Definition rounds_in (i : bytes) (size : Z) : option (Z * bool) :=
  match load dbg64 i with
  | Ok s => let m := k_load_image dbg64 idle s 0 (repeat 0 (Z.to_nat size)) in
      Some (fst m, match snd m with Ok _ => true | _ => false end)
  | _ => None
  end.
Definition with_image (depth : Z) (data : bytes) : bytes := hdr 1 depth 3 2 ++
  frm [palette_ch 2 0 1 [(1, 2, 3, 4); (5, 6, 7, 8)]; layer_ch 1 0 0 255 [97]; raw_cel_ch 0 0 0 255 3 2 data].
(** Three by two pixels: indexed, greyscale, RGBA, and a target that is too small. *)
Example C143_example :
  rounds_in (with_image 8 [0; 1; 1; 0; 1; 0]) 30 = Some (6, true) /\
  rounds_in (with_image 16 [0; 1; 1; 0; 1; 0; 7; 8; 9; 10; 11; 12]) 24 = Some (6, true) /\
  rounds_in (with_image 32 (repeat 9 24)) 24 = Some (0, true) /\
  rounds_in (with_image 8 [0; 1; 1; 0; 1; 0]) 23 = Some (0, false).
Proof. repeat split; vm_compute; reflexivity. Qed.
