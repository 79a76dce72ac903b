(** The label of a list with a single class (src/util/ListTensorStream.cpp:101-127): a number that falls from 1 with the
    distance of the pixel's colour from the colour of the class.  The square root of floats is computed in single precision
    (std::sqrt(float)), the rest as written in double precision. *)
From Coq Require Import ZArith Floats.SpecFloat.
From Verif Require Import Base Float32 FloatOps Float64 Pixel_Model List_Model.
Local Open Scope Z_scope.

Definition fsqrt (a : f32) : f32 := bits_of_sf (SFsqrt 24 128 (sf_of_bits a)).
(** std::sqrt(3.0). *)
Definition d_sqrt3 : double := SFsqrt 53 1024 (d_of_Z 3).

(** Lines 104-106 and 124-127. *)
Definition single_class (lr lg lb : f32) (color : Z) : f32 :=
  let fr := datum_from_uchar (channel color 0) in
  let fg := datum_from_uchar (channel color 1) in
  let fb := datum_from_uchar (channel color 2) in
  let norm := fsqrt (fadd (fadd (fmul (fsub lr fr) (fsub lr fr)) (fmul (fsub lg fg) (fsub lg fg))) (fmul (fsub lb fb) (fsub lb fb))) in
  let class1_diff := f_of_d (ddiv (d_of_f norm) d_sqrt3) in
  f_of_d (dsub (d_of_Z 1) (dmul (d_of_Z 2) (d_of_f class1_diff))).
