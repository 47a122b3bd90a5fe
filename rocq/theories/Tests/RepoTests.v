(** The tests of the repository (file.rs, header.rs, chunks/*.rs, loader/mod.rs)
    run on the model.  Images and frames are compared by Adler-32 checksums
    that were computed from the test files by an independent program.  Longer
    computations are done once by [Eval] when this file is compiled. *)
From Verif.Model Require Import Loader Inflate.
From Verif.Tests Require Import Configs TestData.

Definition with_sprite {A} (f : bytes) (k : ase_file -> A) : option A :=
  match load dbg64 f with Ok s => Some (k s) | _ => None end.
Definition checksum (m : buf_out) : option Z := match m with Ok t => Some (adler32 t) | _ => None end.
Definition zeros (n : Z) : bytes := repeat 0 (Z.to_nat n).

Definition image_sums (f : bytes) : option (list (option Z)) :=
  with_sprite f (fun s =>
    map (fun '(k, im) => checksum (load_image dbg64 inflate_zlib s k (zeros (im_width im * im_height im * 4))))
        (enumerate (af_images s))).
Definition frame_sums (f : bytes) (sel : ase_file -> layer_selection) : option (list (option Z)) :=
  with_sprite f (fun s =>
    map (fun '(k, _) => checksum (render_frame dbg64 inflate_zlib s k
           (zeros (fst (api_size s) * snd (api_size s) * 4)) (sel s)))
        (enumerate (api_frames s))).

(** file.rs:140-146, header.rs:103-128 *)
Example test_parse_file : with_sprite file_default (fun s =>
    (map (fun f => fr_duration f) (f_frames (af_file s)), h_file_size (f_header (af_file s)),
     h_frames (f_header (af_file s)), api_size s, h_color_depth (f_header (af_file s)))) =
  Some ([100], 573, 1, (32, 32), Rgba).
Proof. vm_compute. reflexivity. Qed.

(** file.rs:148-182 *)
Example test_palette : with_sprite file_indexed (fun s =>
    (h_color_depth (f_header (af_file s)),
     option_map (fun p => nth_error p 27) (f_palette (af_file s)))) =
  Some (Indexed, Some (Some {| red := 172; green := 50; blue := 50; alpha := 255 |})).
Proof. vm_compute. reflexivity. Qed.

(** file.rs:184-218: the texts of the sprite, the layer, the slice, the cel and the two tags *)
Definition text (u : option user_data_chunk) : option bytes := match u with Some u => ud_text u | None => None end.
Example test_user_data : with_sprite file_user_data (fun s => let f := af_file s in
    (text (f_user_data f), map (fun l => text (lc_user_data l)) (f_layers f),
     map (fun l => text (sc_user_data l)) (f_slices f),
     map (fun fr => map (fun x => match x with Some x => text (cc_user_data x) | None => None end) (fr_cels fr)) (f_frames f),
     map (fun t => (tg_name t, text (tg_user_data t))) (f_tags f))) =
  Some (Some [115; 112; 114; 105; 116; 101; 95; 100; 97; 116; 97], [Some [108; 97; 121; 101; 114; 95; 100; 97; 116; 97]], [Some [115; 108; 105; 99; 101; 95; 100; 97; 116; 97]],
        [[Some [99; 101; 108; 95; 100; 97; 116; 97]]],
        [([84; 97; 103; 32; 49], Some [116; 97; 103; 95; 100; 97; 116; 97; 95; 49]); ([84; 97; 103; 32; 50], Some [116; 97; 103; 95; 100; 97; 116; 97; 95; 50])]).
Proof. vm_compute. reflexivity. Qed.

(** color_depth.rs:54-59, blend_mode.rs:43-57 *)
Example test_bpp : (bpp Rgba, bpp Grayscale, bpp Indexed) = (32, 16, 8).
Proof. reflexivity. Qed.
Example test_parse_blend_mode :
  (parse_blend_mode [0x07; 0x00], parse_blend_mode [0x12; 0x00], parse_blend_mode [0x37; 0x13]) =
  (Ok ([], BColorBurn), Ok ([], BDivide), Ok ([], BUnknown 0x1337)).
Proof. reflexivity. Qed.

(** chunks/layer.rs:86-97, chunks/tags.rs:81-92 *)
Example test_layers : with_sprite file_layers (fun s => map ly_name (api_layers s)) =
  Some [[76; 97; 121; 101; 114; 32; 49]; [76; 97; 121; 101; 114; 32; 50]; [76; 97; 121; 101; 114; 32; 51]].
Proof. vm_compute. reflexivity. Qed.
Example test_tags : with_sprite file_tags (fun s => map stag_name (api_tags s)) =
  Some [[84; 97; 103; 32; 49]; [84; 97; 103; 32; 50]; [84; 97; 103; 32; 51]].
Proof. vm_compute. reflexivity. Qed.

(** loader/mod.rs:490-511 *)
Definition combine_images := Eval vm_compute in image_sums file_combine.
Example test_cel : combine_images =
  Some [Some 1125583066; Some 2881749023; Some 3185527029; Some 2900459896; Some 4104109483].
Proof. reflexivity. Qed.
(** The images of the other files *)
Definition indexed_images := Eval vm_compute in image_sums file_indexed.
Definition layers_images := Eval vm_compute in image_sums file_layers.
Definition issue_4_2_images := Eval vm_compute in image_sums file_issue_4_2.
Example test_images :
  (indexed_images, layers_images, issue_4_2_images, image_sums file_user_data) =
  (Some [Some 2287228085], Some [Some 3338168943; Some 1884316437; Some 4007913673],
   Some [Some 1554595004; Some 1554595004; Some 1554595004; Some 1554595004; Some 3095251192; Some 3095251192],
   Some [Some 67108865]).
Proof. vm_compute. reflexivity. Qed.

(** loader/mod.rs:535-547 *)
Example test_visible_layers_empty_produces_blank :
  with_sprite file_layers (fun s =>
    render_frame dbg64 inflate_zlib s 0 (zeros (fst (api_size s) * snd (api_size s) * 4))
      (select_layers_by_name s [])) = Some (Ok (zeros 4096)).
Proof. vm_compute. reflexivity. Qed.

(** loader/mod.rs:549-582: all layers and the first layer only *)
Definition all_layers := Eval vm_compute in frame_sums file_layers (fun _ => SelVisible).
Definition first_layer := Eval vm_compute in
  frame_sums file_layers (fun s => select_layers_by_name s (map ly_name (firstn 1 (api_layers s)))).
Example test_visible_layers_single_differs_from_all :
  all_layers = Some [Some 3067579649] /\ first_layer <> all_layers.
Proof. split; [reflexivity|]. unfold first_layer, all_layers. congruence. Qed.

Definition indexed_frames := Eval vm_compute in frame_sums file_indexed (fun _ => SelVisible).
Definition default_frames := Eval vm_compute in frame_sums file_default (fun _ => SelVisible).
Example test_frames :
  (indexed_frames, default_frames) = (Some [Some 2826523829], Some [Some 268435457]).
Proof. reflexivity. Qed.

(** loader/mod.rs:584-611 *)
Definition issue_4_1_frames := Eval vm_compute in frame_sums file_issue_4_1 (fun _ => SelVisible).
Example test_issue_4_1 : issue_4_1_frames = Some [Some 2066379025].
Proof. reflexivity. Qed.
Definition issue_4_2_frames := Eval vm_compute in frame_sums file_issue_4_2 (fun _ => SelVisible).
Example test_issue_4_2 : issue_4_2_frames =
  Some [Some 82135607; Some 3297070906; Some 958348930; Some 564138778; Some 1765990883; Some 4273874364].
Proof. reflexivity. Qed.
