(** Layer opacity moved into the pictures. *)
From Verif.Model Require Import Loader.
From Verif.Spec Require Import Bytes ImageSpec BlendSpec RenderSpec Made Convert.

(** The same colour with the part [o / 255] of the alpha, rounded. *)
Definition faded (o : Z) (p q : px) : Prop :=
  pr q = pr p /\ pg q = pg p /\ pb q = pb p /\ rounded (pa p * o) 255 (pa q).

(** Layers: the same, but opaque. *)
Definition opaque_layer (l l' : layer) : Prop :=
  l' = {| ly_name := ly_name l; ly_opacity := 255; ly_blend_mode := ly_blend_mode l;
          ly_visible := ly_visible l; ly_layer_type := ly_layer_type l |}.

(** The cels have the same place, size and layer.  Both show plain pictures, the
    second one faded by the opacity of the layer of the first. *)
Definition baked_cel (s s' : ase_file) (cel cel' : frame_cel) : Prop :=
  fc_layer_index cel' = fc_layer_index cel /\ fc_origin cel' = fc_origin cel /\ fc_size cel' = fc_size cel /\
  exists l im im', nth_error (af_layers s) (Z.to_nat (fc_layer_index cel)) = Some l /\
    nth_error (af_images s) (Z.to_nat (fc_image_index cel)) = Some im /\
    nth_error (af_images s') (Z.to_nat (fc_image_index cel')) = Some im' /\
    plain_rgba im /\ plain_rgba im' /\ image_size im = fc_size cel /\ image_size im' = fc_size cel /\
    forall x y p, 0 <= x < im_width im -> 0 <= y < im_height im -> pixel (im_width im) (im_data im) x y = Some p ->
      exists q, pixel (im_width im) (im_data im') x y = Some q /\ faded (ly_opacity l) p q.

Definition baked (s s' : ase_file) : Prop :=
  h_color_depth (f_header (af_file s)) = Rgba /\ h_color_depth (f_header (af_file s')) = Rgba /\
  canvas s' = canvas s /\ Forall2 opaque_layer (af_layers s) (af_layers s') /\
  Forall2 (fun f f' => Forall2 (baked_cel s s') (sf_cels f) (sf_cels f')) (af_frames s) (af_frames s').
