(** Order and symmetry of what is drawn (C81-C84). *)
From Verif.Model Require Import Loader.
From Verif.Spec Require Import Bytes ImageSpec BlendSpec RenderSpec Laws.
From Verif.Proofs Require Import LawProps ExactProps.
From Verif.Tests Require Import Configs Build.

(** ** C81 *)
Theorem C81_darken : forall m back front o, darkens m -> is_px back -> is_px front -> is_byte o -> pa back = 255 ->
  forall c f r, blend_mode_to_blend_fn c m = Ok f -> f back front o = Ok r -> no_lighter r back.
Proof. exact darken_opaque. Qed.
Print Assumptions C81_darken.
Theorem C81_lighten : forall m back front o, lightens m -> is_px back -> is_px front -> is_byte o -> pa back = 255 ->
  forall c f r, blend_mode_to_blend_fn c m = Ok f -> f back front o = Ok r -> no_lighter back r.
Proof. exact lighten_opaque. Qed.
Print Assumptions C81_lighten.

(** Over any back, compared with normal drawing. *)
Theorem C81_normal : forall m back front o, is_px back -> is_px front -> is_byte o ->
  forall c f r n, blend_mode_to_blend_fn c m = Ok f -> f back front o = Ok r -> normal c back front o = Ok n ->
  (In m [BMultiply; BDarken] -> no_lighter r n) /\ (In m [BScreen; BLighten; BAddition] -> no_lighter n r).
Proof. exact compare_normal. Qed.
Print Assumptions C81_normal.

Example C81_example :
  color_burn dbg64 (mkpx 200 100 50 255) (mkpx 200 100 250 128) 200 = Ok (mkpx 195 61 49 255) /\
  color_dodge dbg64 (mkpx 200 100 50 255) (mkpx 20 100 250 128) 200 = Ok (mkpx 206 125 130 255) /\
  screen dbg64 (mkpx 200 100 50 99) (mkpx 20 100 250 128) 200 = Ok (mkpx 143 119 175 160) /\
  normal dbg64 (mkpx 200 100 50 99) (mkpx 20 100 250 128) 200 = Ok (mkpx 88 100 175 160).
Proof. repeat split. Qed.

(** ** C82 *)
(** The result for the smaller opacity lies between the back and the result for
    the larger one. *)
Theorem C82_opacity : forall m back front front' o o', separable m -> is_px back -> is_px front -> is_px front' -> is_byte o -> is_byte o' ->
  pr front' = pr front -> pg front' = pg front -> pb front' = pb front -> pa front * o <= pa front' * o' ->
  forall c f r r', blend_mode_to_blend_fn c m = Ok f -> f back front o = Ok r -> f back front' o' = Ok r' ->
  pa r <= pa r' /\
  (pa back = 255 -> between (pr back) (pr r') (pr r) /\ between (pg back) (pg r') (pg r) /\ between (pb back) (pb r') (pb r)).
Proof. exact more_opacity. Qed.
Print Assumptions C82_opacity.

Example C82_example :
  difference dbg64 (mkpx 200 100 50 255) (mkpx 20 100 250 128) 100 = Ok (mkpx 197 81 79 255) /\
  difference dbg64 (mkpx 200 100 50 255) (mkpx 20 100 250 200) 100 = Ok (mkpx 194 70 95 255).
Proof. split; reflexivity. Qed.

(** ** C83 *)
(** Any rearrangement of the channels of both pixels is found in the result.
    Not so for soft light, which treats blue in its own way (C47). *)
Theorem C83_channels : forall m back front o a b d, separable m -> m <> BSoftLight -> is_px back -> is_px front -> is_byte o ->
  is_channel a -> is_channel b -> is_channel d ->
  forall c f r, blend_mode_to_blend_fn c m = Ok f -> f back front o = Ok r ->
  f (rearranged a b d back) (rearranged a b d front) o = Ok (rearranged a b d r).
Proof. exact channels_alike. Qed.
Print Assumptions C83_channels.

Example C83_example : (* blue, green, red; and grey *)
  hard_light dbg64 (mkpx 200 100 50 90) (mkpx 20 100 250 128) 100 = Ok (mkpx 128 97 131 122) /\
  hard_light dbg64 (mkpx 50 100 200 90) (mkpx 250 100 20 128) 100 = Ok (mkpx 131 97 128 122) /\
  hard_light dbg64 (mkpx 50 50 50 90) (mkpx 250 250 250 128) 100 = Ok (mkpx 131 131 131 122).
Proof. repeat split. Qed.

(** ** C84 *)
Theorem C84_exchange : forall c i s i' s', cfg_ok c -> is_bytes i -> addressable c i -> load c i = Ok s ->
  is_bytes i' -> addressable c i' -> load c i' = Ok s' ->
  same_canvas s s' -> f_palette (af_file s) = f_palette (af_file s') ->
  forall inflate, inflate_ok inflate -> sprite_fits c s -> sprite_fits c s' ->
  forall sel sel' k sf k' sf', nth_error (api_frames s) k = Some sf -> nth_error (api_frames s') k' = Some sf' ->
  exchanged (shown s sel (sf_cels sf)) (shown s' sel' (sf_cels sf')) ->
  forall target r, is_bytes target ->
  (render_frame c inflate s (Z.of_nat k) target sel = Ok r <->
   render_frame c inflate s' (Z.of_nat k') target sel' = Ok r).
Proof. exact exchanged_alike. Qed.
Print Assumptions C84_exchange.

(** Three pixels on three layers, the last over the first. *)
Definition left_px (k : Z) : bytes := raw_cel_ch k 0 0 255 1 1 [10; 20; 30; 255].
Definition right_px (k : Z) : bytes := raw_cel_ch k 1 0 255 1 1 [40; 50; 60; 255].
Definition over_px (k : Z) : bytes := raw_cel_ch k 0 0 255 1 1 [128; 128; 128; 255].
Definition three_layers (m0 m1 m2 : Z) (cels : list bytes) : bytes :=
  hdr 1 32 2 1 ++ frm ([layer_ch 1 0 m0 255 [97]; layer_ch 1 0 m1 255 [98]; layer_ch 1 0 m2 255 [99]] ++ cels).
Definition no_inflate : inflater := fun _ _ => (ZError, []).
Example C84_example : exists s s' sf sf', load dbg64 (three_layers 0 0 1 [left_px 0; right_px 1; over_px 2]) = Ok s /\
  load dbg64 (three_layers 0 1 0 [left_px 0; over_px 1; right_px 2]) = Ok s' /\
  nth_error (api_frames s) 0 = Some sf /\ nth_error (api_frames s') 0 = Some sf' /\
  exchanged (shown s SelAll (sf_cels sf)) (shown s' SelAll (sf_cels sf')) /\
  render_frame dbg64 no_inflate s 0 (repeat 0 8) SelAll = Ok [5; 10; 15; 255; 40; 50; 60; 255].
Proof.
  do 4 eexists. split; [vm_compute; reflexivity|]. split; [vm_compute; reflexivity|].
  split; [reflexivity|]. split; [reflexivity|]. split; [|vm_compute; reflexivity].
  match goal with |- exchanged ?l _ => let v := eval vm_compute in l in
    match v with [?x; ?y; ?z] => exact (exchanged_one l [x] y z [] (exchanged_none l) (or_intror (or_introl (Z.le_refl 1)))) end end.
Qed.
