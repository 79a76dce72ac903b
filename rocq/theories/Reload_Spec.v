(** What C90 talks about. *)
From Verif Require Import Base Tensor_Model Tensor_Spec Float32 Evaluate_Spec DatasetInput_Model.
Local Open Scope list_scope.
Local Open Scope nat_scope.

(** Slot [s] of a batch shows the image [img] and has the helper maps [hlp]; labels and weights may be anything. *)
Definition shows (o : outputs f32) (s : nat) (img hlp : picture) : Prop := slot_is (o_data o) s img /\ slot_is (o_helper o) s hlp.
(** The same sample, bit for bit, in slot [s] of one output and in slot [s'] of another. *)
Definition same_sample (out : tensor f32) (s : nat) (out' : tensor f32) (s' : nat) : Prop :=
  width out = width out' /\ height out = height out' /\ maps out = maps out' /\
  forall x y m, x < width out -> y < height out -> m < maps out -> exists v, at_pos out x y m s = Some v /\ at_pos out' x y m s' = Some v.
