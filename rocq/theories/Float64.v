(** IEEE-754 binary64 arithmetic (C++ type double, round to nearest even) as computed by the standard
    library's [SpecFloat] with 53 digits and maximal exponent 1024, and conversions to and from the
    binary32 patterns of [FloatOps]. *)
From Coq Require Import ZArith Bool Floats.SpecFloat.
From Verif Require Import Base Float32 FloatOps.
Local Open Scope Z_scope.

Definition double := spec_float.
Definition signed (s : bool) (m : positive) : Z := if s then Z.neg m else Z.pos m.

(** float to double (exact) and double to float (rounds). *)
Definition d_of_f (a : f32) : double :=
  match sf_of_bits a with S754_finite s m e => binary_normalize 53 1024 (signed s m) e s | x => x end.
Definition f_of_d (x : double) : f32 :=
  bits_of_sf (match x with S754_finite s m e => binary_normalize 24 128 (signed s m) e s | x => x end).
Definition d_of_Z (n : Z) : double := binary_normalize 53 1024 n 0 false.

Definition dadd : double -> double -> double := SFadd 53 1024.
Definition dsub : double -> double -> double := SFsub 53 1024.
Definition dmul : double -> double -> double := SFmul 53 1024.
Definition ddiv : double -> double -> double := SFdiv 53 1024.

Definition d_nan (x : double) : bool := match x with S754_nan => true | _ => false end.
(** C's fmin and fmax: a NaN argument is ignored. *)
Definition dmin (x y : double) : double := if d_nan x then y else if d_nan y then x else if SFltb y x then y else x.
Definition dmax (x y : double) : double := if d_nan x then y else if d_nan y then x else if SFltb x y then y else x.

(** Conversion to int: rounds towards zero, undefined outside the range of int. *)
Definition d_trunc (x : double) : option Z :=
  match x with
  | S754_zero _ => Some 0
  | S754_finite s m e =>
    let v := if 0 <=? e then Z.pos m * 2 ^ e else Z.pos m / 2 ^ (- e) in
    Some (if s then - v else v)
  | _ => None
  end.
Definition d_to_int (x : double) : res Z :=
  match d_trunc x with Some z => if (- 2 ^ 31 <=? z) && (z <? 2 ^ 31) then Ok z else UB | None => UB end.
