(** Specification of whole training runs. *)
From Coq Require Import Reals.
From Verif Require Import Base Num Trainer_Model.
Local Open Scope list_scope.

(** The losses the user sees, one per iteration. *)
Definition reported {D} (es : list (event D)) : list D := flat_map (fun e => match e with EIteration v => [v] | _ => [] end) es.

(** The states of a training run: [i] iterations into an epoch of [its].  Each epoch begins by switching the network to training ([switch]). *)
Definition begins {W} (switch : W -> W) (t : trainer R W) : trainer R W := with_world R W t (switch (world t)).
Inductive reaches {W} (run : trainer R W * list (event R) -> nat -> res (trainer R W * list (event R))) (switch : W -> W) (its : nat) (t0 : trainer R W) :
    nat -> trainer R W -> Prop :=
| re_start : reaches run switch its t0 0 (begins switch t0)
| re_iteration i t es u es' : reaches run switch its t0 i t -> i < its -> run (t, es) i = Ok (u, es') -> reaches run switch its t0 (S i) u
| re_epoch t : reaches run switch its t0 its t -> reaches run switch its t0 0 (begins switch (with_epoch R W t (to_u32 (S (epoch t))))).
