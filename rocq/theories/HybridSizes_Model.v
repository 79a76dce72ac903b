(** The parameters HMaxActivationFunction creates when it is connected. *)
From Verif Require Import Base Tensor_Model Num Act_Model.

(** HMaxActivationFunction.cpp:96-115: the data of the weights; [None] if the output does not fit. *)
Definition hmax_connect {D : Type} (K : num D) (junk : nat -> D) (input output : tensor D) : res (option (tensor D)) :=
  if act_connect input output then
    w <- clear (new_tensor junk 1 2 1 1) (n1 K) None ;; Ok (Some w)
  else Ok None.
