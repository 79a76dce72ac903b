(** Model of KITTIData::LocalizedError (src/util/KITTIData.cpp:82-98).  [x], [y], [w] and [h] are unsigned.
    pow(q, 2.0) is the double product q * q, which is exact for a float q. *)
From Coq Require Import Floats.SpecFloat.
From Verif Require Import Base Float32 FloatOps Float64 Str_Model Config_Model Receptive_Model.
Local Open Scope Z_scope.

(** Lines 82-83: [scaled 1226 w v] is WSC(v), [scaled 370 h v] is HSC(v). *)
Definition scaled (full size v : Z) : res Z :=
  d_to_int (ddiv (d_of_f (fmul (f_of_Z v) (f_of_Z size))) (d_of_Z full)).

(** The literals 0.25 and 0.51 as doubles. *)
Definition d_quarter : double := S754_finite false 4503599627370496 (-54).
Definition d_051 : double := S754_finite false 4593671619917906 (-53).

(** Line 95: an expression of doubles, rounded to float. *)
Definition weighted (quotient shape_weight : f32) : f32 :=
  f_of_d (dadd d_quarter (dmul (dsub (dmul (d_of_f quotient) (d_of_f quotient)) d_quarter) (d_of_f shape_weight))).
(** Line 97. *)
Definition scaled_error (error : f32) : f32 := f_of_d (dmul d_051 (d_of_f error)).

(** Lines 84-98. *)
Definition localized_error (x y w h : Z) : res f32 :=
  middle <- scaled 1226 w 613 ;;
  difference <- int_ (middle - to_int x) ;;
  idistance <- int_ (Z.abs difference) ;;
  distance <- scaled 1226 w idistance ;;
  h140 <- scaled 370 h 140 ;;
  below <- int_ (to_int y - h140) ;;
  limit <- int_ (3 * below) ;;
  let xy_allowed := if limit <? distance then f32_zero else f32_one in
  h190 <- scaled 370 h 190 ;;
  let y_factor := if to_uint h190 <? y then f32_one else f32_zero in
  let shape_weight := fmul xy_allowed y_factor in
  h170 <- scaled 370 h 170 ;;
  h200 <- scaled 370 h 200 ;;
  let quotient :=
    if y <=? to_uint h170 then f_of_Z 7
    else f_of_d (dmax (d_of_Z 1) (dmin (d_of_Z 7) (d_of_f (fdiv (f_of_Z h200) (fsub (f_of_Z y) (f_of_Z h170)))))) in
  Ok (scaled_error (weighted quotient shape_weight)).
