(** Model of GradientAccumulationLayer::BackPropagate
    (src/net/GradientAccumulationLayer.cpp:96-107). *)
From Verif Require Import Base.

Section Accumulate.
Variable D : Type.
Variable zero : D.
Variable add : D -> D -> D.

(** Line 97: Tensor::Clear of the input's gradient, whose memory is [delta_in]. *)
Definition accumulate_clear (delta_in : list D) : res (list D) :=
  exec (for_ (length delta_in) (fun e => [(e, Ok zero)])) delta_in.
(** Lines 99-106: the work of one sample. *)
Definition accumulate_sample (eps : nat) (deltas_out : list (list D)) (s : nat) : list (nat * res D) :=
  for_ eps (fun e => for_ (length deltas_out) (fun i =>
    [(s * eps + e, d <- load deltas_out i ;; load d (s * eps + e))])).
Definition accumulate (samples eps : nat) (deltas_out : list (list D)) (delta_in : list D) : res (list D) :=
  d0 <- accumulate_clear delta_in ;;
  exec_with add (for_ samples (accumulate_sample eps deltas_out)) d0.
End Accumulate.
