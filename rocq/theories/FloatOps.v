(** IEEE-754 binary32 arithmetic (round to nearest even) on the bit patterns of [Float32],
    as computed by the standard library's [SpecFloat] with 24 digits and maximal exponent
    128.  The result of an invalid operation is the quiet NaN 0x7FC00000; real machines may
    use another NaN.  Expressions of floats are evaluated in single precision
    (FLT_EVAL_METHOD 0, as on x86-64). *)
From Coq Require Import ZArith Bool Lia Floats.SpecFloat.
From Verif Require Import Base Float32.
Local Open Scope Z_scope.

Definition sf_of_bits (b : f32) : spec_float :=
  let s := 2 ^ 31 <=? b in
  let mag := b mod 2 ^ 31 in
  if mag =? 0 then S754_zero s
  else if mag <? 2 ^ 23 then S754_finite s (Z.to_pos mag) (-149)
  else if mag <? 2139095040 then S754_finite s (Z.to_pos (2 ^ 23 + mag mod 2 ^ 23)) (mag / 2 ^ 23 - 150)
  else if mag =? 2139095040 then S754_infinity s
  else S754_nan.

Definition sign_bit (s : bool) : Z := if s then 2 ^ 31 else 0.
Definition bits_of_sf (x : spec_float) : f32 :=
  match x with
  | S754_zero s => sign_bit s
  | S754_infinity s => sign_bit s + 2139095040
  | S754_nan => 2143289344
  | S754_finite s m e => sign_bit s + (e + 149) * 2 ^ 23 + Z.pos m
  end.

Definition fmul (a b : f32) : f32 := bits_of_sf (SFmul 24 128 (sf_of_bits a) (sf_of_bits b)).
Definition fadd (a b : f32) : f32 := bits_of_sf (SFadd 24 128 (sf_of_bits a) (sf_of_bits b)).
Definition fsub (a b : f32) : f32 := bits_of_sf (SFsub 24 128 (sf_of_bits a) (sf_of_bits b)).
Definition fdiv (a b : f32) : f32 := bits_of_sf (SFdiv 24 128 (sf_of_bits a) (sf_of_bits b)).
Definition fneg (a : f32) : f32 := bits_of_sf (SFopp (sf_of_bits a)).
(** Conversion of an integer (rounds to nearest even). *)
Definition f_of_Z (n : Z) : f32 := bits_of_sf (binary_normalize 24 128 n 0 false).
(** Rounding towards zero; None for infinities and NaN. *)
Definition trunc (a : f32) : option Z :=
  match sf_of_bits a with
  | S754_zero _ => Some 0
  | S754_finite s m e =>
    let v := if 0 <=? e then Z.pos m * 2 ^ e else Z.pos m / 2 ^ (- e) in
    Some (if s then - v else v)
  | _ => None
  end.
(** Cast to unsigned char: undefined unless the truncated value is 0..255. *)
Definition f_to_uchar (a : f32) : res Z :=
  match trunc a with Some z => if (0 <=? z) && (z <? 256) then Ok z else UB | None => UB end.
