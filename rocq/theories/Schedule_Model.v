(** Trainer::CalculateLR (Trainer.h:103-107) and the scaling of iteration counts
    (Trainer.cpp:262-263, 327-328) over real numbers. *)
From Coq Require Import Reals.
From Flocq Require Import Core.
From Verif Require Import Base.
Local Open Scope R_scope.

(** Trainer.h:103-107; [pow] of a positive base.  Exact real arithmetic. *)
Definition calculate_lr (learning_rate gamma exponent : R) (iteration : nat) : R :=
  learning_rate * Rpower (1 + gamma * INR iteration) (- exponent).

(** Rounding to datum (IEEE binary32, round to nearest even). *)
Definition round32 (x : R) : R := round radix2 (FLT_exp (-149) 24) ZnearestE x.

(** [(unsigned int) (((datum) n) * ratio)] for a ratio that is a datum; results that do
    not fit in an unsigned int are undefined in C++ and not considered. *)
Definition scale (n : nat) (ratio : R) : nat := Z.to_nat (Ztrunc (round32 (round32 (INR n) * ratio))).
