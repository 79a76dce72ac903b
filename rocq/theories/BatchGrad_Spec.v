(** What C83 says about batches: the layers of a network for batches, and the same network for one sample. *)
From Coq Require Import Reals.
From Verif Require Import Base Num RealNum BackpropLayers_Model BackpropLayers_Spec BackpropNet_Spec Batch_Spec.
Local Open Scope nat_scope.
Local Open Scope list_scope.

(** The same layer, set up for a batch of [b] and for a single sample. *)
Inductive same_mapping (b : nat) : mapping -> mapping -> Prop :=
| sm_border bx by_ d out delta out1 delta1 : same_mapping b (MBorder bx by_ (at_batch b d) out delta) (MBorder bx by_ (at_batch 1 d) out1 delta1)
| sm_prior ratio d out delta out1 delta1 : same_mapping b (MPrior ratio (at_batch b d) out delta) (MPrior ratio (at_batch 1 d) out1 delta1)
| sm_upscale rw rh d out delta out1 delta1 : same_mapping b (MUpscale rw rh (at_batch b d) out delta) (MUpscale rw rh (at_batch 1 d) out1 delta1)
| sm_pool rw rh d ix iy out delta ix1 iy1 out1 delta1 :
    same_mapping b (MPool rw rh (at_batch b d) ix iy out delta) (MPool rw rh (at_batch 1 d) ix1 iy1 out1 delta1)
| sm_strided rw rh sw sh d mask out delta mask1 out1 delta1 :
    same_mapping b (MStrided rw rh sw sh (at_batch b d) mask out delta) (MStrided rw rh sw sh (at_batch 1 d) mask1 out1 delta1)
| sm_normalize alpha beta method n d sums out delta sums1 out1 delta1 :
    same_mapping b (MNormalize alpha beta method n (at_batch b d) sums out delta) (MNormalize alpha beta method n (at_batch 1 d) sums1 out1 delta1).

(** The layer for one sample: the same as the layer for batches; and an input layer shows sample [s] of the batch. *)
Inductive one_sample (b s : nat) : part -> part -> Prop :=
| os_input ds loaded loaded1 : all_alike b 1 s 0 (map Some ds) loaded loaded1 ->
    one_sample b s (PInput (map (at_batch b) ds) loaded) (PInput (map (at_batch 1) ds) loaded1)
| os_sigmoid d out delta out1 delta1 : one_sample b s (PSigmoid (at_batch b d) out delta) (PSigmoid (at_batch 1 d) out1 delta1)
| os_tanh d out delta out1 delta1 : one_sample b s (PTanh (at_batch b d) out delta) (PTanh (at_batch 1 d) out1 delta1)
| os_rectifier d out delta out1 delta1 : one_sample b s (PRectifier (at_batch b d) out delta) (PRectifier (at_batch 1 d) out1 delta1)
| os_sum d out a c out1 a1 c1 : one_sample b s (PSum (at_batch b d) out a c) (PSum (at_batch 1 d) out1 a1 c1)
| os_concatenation d e out a c out1 a1 c1 :
    one_sample b s (PConcatenation (at_batch b d) (at_batch b e) out a c) (PConcatenation (at_batch 1 d) (at_batch 1 e) out1 a1 c1)
| os_loss d weight delta delta1 : one_sample b s (PLoss (at_batch b d) weight delta) (PLoss (at_batch 1 d) weight delta1)
| os_convolution c d st out delta st1 out1 delta1 :
    one_sample b s (PConvolution c (at_batch b d) st out delta) (PConvolution c (at_batch 1 d) st1 out1 delta1)
| os_mapping q q1 : same_mapping b q q1 -> one_sample b s (PMapping q) (PMapping q1)
| os_statistics ds ds1 : one_sample b s (PStatistics ds) (PStatistics ds1).

(** The layers [ones i] show sample [i].  In these passes the layers for batches of [b] show, as sample [s] of pass [j], sample [which j s]. *)
Definition shows (history : list nat) (b : nat) (parts ones : nat -> nat -> part) (which : nat -> nat -> nat) (passes : list nat) : Prop :=
  forall j s n, In j passes -> s < b -> In n history -> one_sample b s (parts j n) (ones (which j s) n).
(** All samples of some passes. *)
Definition shown (b : nat) (which : nat -> nat -> nat) (passes : list nat) : list nat := flat_map (fun j => map (which j) (seq 0 b)) passes.
