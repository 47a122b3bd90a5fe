(** What the text of an error should be like. *)
From Verif.Model Require Import Base Nom.

(** Printable ASCII *)
Definition printable (l : bytes) : Prop := Forall (fun c => 32 <= c <= 126) l.

(** The same variant, whatever its fields *)
Definition same_kind (e e' : parse_error) : Prop :=
  match e, e' with
  | EDwordToUsize _, EDwordToUsize _ | EInvalidFrameSize _, EInvalidFrameSize _
  | EInvalidChunkSize _, EInvalidChunkSize _ | EUtf8 _ _, EUtf8 _ _ | EPalette _, EPalette _
  | EInvalidFrameRange _ _, EInvalidFrameRange _ _ | ELayerIndexOutOfBounds, ELayerIndexOutOfBounds
  | EInvalidPropertyType _, EInvalidPropertyType _ | ENom _ _, ENom _ _ => True
  | _, _ => False
  end.
