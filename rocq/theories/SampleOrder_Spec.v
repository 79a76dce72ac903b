(** Specification of the order of the training samples. *)
From Verif Require Import Base DatasetInput_Spec.

(** How many of the calls load a batch of training samples, [t] telling whether the layer is testing at first. *)
Fixpoint training_feeds (t : bool) (cs : list call) : nat :=
  match cs with
  | [] => 0
  | SetTesting t' :: cs => training_feeds t' cs
  | Feed :: cs => (if t then 0 else 1) + training_feeds t cs
  end.
