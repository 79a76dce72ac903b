(** Vocabulary for the stream properties. *)
From Verif Require Import Base Float32 Bytes_Model Tensor_Model Tensor_Spec Codec_Model Codec_Spec.
Local Open Scope Z_scope.

(** A tensor of floats as a program can hold it: consistent, contents are 32-bit
    patterns, sizes are 64-bit numbers. *)
Definition f32_tensor (t : tensor f32) : Prop :=
  wf t /\ match data t with Some l => Forall f32_range l | None => True end.
Definition sizes_fit {D} (t : tensor D) : Prop :=
  Z.of_nat (samples t) < 2 ^ 64 /\ Z.of_nat (width t) < 2 ^ 64 /\
  Z.of_nat (height t) < 2 ^ 64 /\ Z.of_nat (maps t) < 2 ^ 64.
Definition non_empty {D} (t : tensor D) : Prop := data t <> None.

(** A compressed tensor with contents. *)
Definition ctensor_ok (c : ctensor) : Prop :=
  c_elements c = (c_samples c * c_width c * c_height c * c_maps c)%nat /\ (0 < c_elements c)%nat /\
  c_data c <> [] /\ Forall is_byte (c_data c) /\
  Z.of_nat (c_samples c) < 2 ^ 64 /\ Z.of_nat (c_width c) < 2 ^ 64 /\
  Z.of_nat (c_height c) < 2 ^ 64 /\ Z.of_nat (c_maps c) < 2 ^ 64 /\
  Z.of_nat (length (c_data c)) < 2 ^ 64.

(** Same tensor up to the sign of zeros. *)
Definition same_tensor_values (t u : tensor f32) : Prop :=
  same_shape t u /\
  match data t, data u with
  | Some l, Some l' => Forall2 same_value l l'
  | None, None => True
  | _, _ => False
  end.
