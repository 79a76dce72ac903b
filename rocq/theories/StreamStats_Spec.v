(** Vocabulary for C77. *)
From Coq Require Import Reals.
From Verif Require Import Base Float32 Tensor_Model Tensor_Spec DatasetInput_Model Dataset_Model Dataset_Spec Backprop_Spec.
Local Open Scope nat_scope.

(** The training samples are proper images with labels; [cls i x y] is the class of a pixel. *)
Definition labelled (d : dataset) (imgs labs : nat -> tensor f32) (cls : nat -> nat -> nat -> nat) : Prop :=
  forall i, i < length (ds_training d) / 2 ->
    sample_is d (ds_training d) i (imgs i) (labs i) /\
    forall x y, x < width (imgs i) -> y < height (imgs i) -> class_of (labs i) x y (cls i x y).

(** Sum over the pixels of all training samples. *)
Definition over_pixels (d : dataset) (imgs : nat -> tensor f32) (f : nat -> nat -> nat -> R) : R :=
  rsum (fun i => rsum (fun y => rsum (fun x => f i x y) (seq 0 (width (imgs i)))) (seq 0 (height (imgs i)))) (seq 0 (length (ds_training d) / 2)).
(** ... of class [c]. *)
Definition over_class (d : dataset) (imgs : nat -> tensor f32) (cls : nat -> nat -> nat -> nat) (c : nat) (f : nat -> nat -> nat -> R) : R :=
  over_pixels d imgs (fun i x y => if cls i x y =? c then f i x y else 0%R).
