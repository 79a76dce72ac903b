(** Arithmetic of datums as a parameter of the numerical parts of the model.  Theorems
    that need no law of arithmetic hold for float arithmetic as it is (rounding included);
    theorems about sums in another order assume [ring_laws] and hold in exact arithmetic. *)
From Coq Require Import Ring_theory ZArith.
From Verif Require Import Base Float32 FloatOps.

Record num (D : Type) : Type := mkNum {
  n0 : D;
  n1 : D;
  nadd : D -> D -> D;
  nmul : D -> D -> D;
  nsub : D -> D -> D;
  nopp : D -> D;
  nzerob : D -> bool      (* the test [x == 0.0] *)
}.
Arguments n0 {D}. Arguments n1 {D}. Arguments nadd {D}. Arguments nmul {D}. Arguments nsub {D}.
Arguments nopp {D}. Arguments nzerob {D}.

(** Exact arithmetic: a commutative ring in which [x == 0.0] is decided correctly. *)
Record ring_laws {D} (K : num D) : Prop := mkRingLaws {
  rl_ring : ring_theory (n0 K) (n1 K) (nadd K) (nmul K) (nsub K) (nopp K) eq;
  rl_zero : forall x, nzerob K x = true <-> x = n0 K;
  rl_one : n1 K <> n0 K
}.

(** [f 0 + f 1 + ... + f (n-1)], added from left to right starting at 0. *)
Fixpoint nsum {D} (K : num D) (n : nat) (f : nat -> D) : D :=
  match n with
  | O => n0 K
  | S m => nadd K (nsum K m f) (f m)
  end.

(** The integers: a [num] with ring laws, used in examples. *)
Definition Z_num : num Z := mkNum _ 0%Z 1%Z Z.add Z.mul Z.sub Z.opp (Z.eqb 0).

(** Single precision floats ([datum], include/cn24/util/Config.h). *)
Definition f32_num : num f32 := mkNum _ f32_zero f32_one fadd fmul fsub fneg (feq f32_zero).
