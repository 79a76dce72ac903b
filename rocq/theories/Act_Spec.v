(** Specification for activations and the loss, over the real numbers. *)
From Coq Require Import Reals.
From Verif Require Import Base Tensor_Model Num RealNum Math_Spec.
Open Scope R_scope.

(** The logistic function. *)
Definition logistic (x : R) : R := / (1 + exp (- x)).
(** max(0, x) *)
Definition ramp (x : R) : R := Rmax 0 x.
(** The comparison [x > 0] of real numbers. *)
Definition R_positive (x : R) : bool := if Rlt_dec 0 x then true else false.

(** Half the weighted sum of squared differences; the weight of a pixel applies to all maps. *)
Definition weighted_loss (lw : R) (ss w h mm : nat) (f label : nat -> nat -> nat -> nat -> R) (weight : nat -> nat -> nat -> R) : R :=
  tensor_sum R_num ss w h mm (fun x y m s => (f x y m s - label x y m s) ^ 2 * weight x y s * lw) / 2.
