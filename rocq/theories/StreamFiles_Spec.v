(** Vocabulary for files of tensors and for request histories. *)
From Verif Require Import Base Float32 Bytes_Model Tensor_Model Codec_Model Stream_Model Stream_Spec.
Local Open Scope Z_scope.

(** End of a list of tensors: end of file, or an empty tensor (a header of zeros, without data) followed by anything. *)
Definition ends_float (tail : list byte) : Prop :=
  tail = [] \/ exists more, tail = repeat 0 32 ++ more.
Definition ends_compressed (tail : list byte) : Prop :=
  tail = [] \/ exists more, tail = repeat 0 40 ++ more.

(** Tensors the compressed format can hold: not empty and below 2^29 elements (the
    decoder counts bytes with 32-bit numbers). *)
Definition compressible (t : tensor f32) : Prop :=
  f32_tensor t /\ sizes_fit t /\ non_empty t /\ 8 * Z.of_nat (elements t) < 2 ^ 32.

(** What Compress leaves in the compressed tensor. *)
Definition compressed_form (t : tensor f32) : ctensor :=
  match c_compress t with Ok c => c | _ => c_empty end.

(** A history of CopySample calls (source tensor, source sample, target sample) on one
    compressed stream, and the same history on a stream of plain tensors; both collect
    the answers. *)
Definition compressed_request (cs : list ctensor) (s : tensor f32 * list bool * list f32)
           (req : nat * nat * nat) : res (tensor f32 * list bool * list f32) :=
  let '(target, answers, temp) := s in
  let '(source, ss, ts) := req in
  r <- compressed_copy_sample cs temp source ss target ts ;;
  let '(target', ok, temp') := r in Ok (target', answers ++ [ok], temp').
Definition float_request (tens : list (tensor f32)) (s : tensor f32 * list bool)
           (req : nat * nat * nat) : res (tensor f32 * list bool) :=
  let '(target, answers) := s in
  let '(source, ss, ts) := req in
  r <- float_copy_sample tens source ss target ts ;;
  let '(target', ok) := r in Ok (target', answers ++ [ok]).
