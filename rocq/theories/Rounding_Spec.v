(** What it means that computed numbers are close to exact ones, for C85 and C86. *)
From Coq Require Import ZArith Reals.
From Verif Require Import Base Float32 Float64_Flocq Num RealNum ConvLayer_Model ConvLayer_Spec Graph_Model Backprop_Model BackpropLayers_Model BackpropLayers_Spec.
Local Open Scope R_scope.
Local Open Scope list_scope.

(** [a] is a finite float, and its value is [r]. *)
Definition value (a : f32) (r : R) : Prop := rep32 a r.

(** The float [a] is finite and at most [error] away from the number [r], which is at most [most] in absolute value. *)
Definition close (most error : R) (a : f32) (r : R) : Prop := exists v, value a v /\ Rabs (v - r) <= error /\ Rabs r <= most.

(** A tensor: its shape, how large its exact elements are at most, and how far the computed elements are from them at most. *)
Record quality := mkQuality { q_dims : dims; q_most : R; q_error : R }.

(** The tensor [l] of floats is as close to the tensor [r] of numbers. *)
Definition near (q : quality) (l : list f32) (r : list R) : Prop :=
  length l = size (q_dims q) /\ length r = size (q_dims q) /\
  forall i, (i < size (q_dims q))%nat -> close (q_most q) (q_error q) (nth i l f32_zero) (nth i r 0).

(** Several tensors; of those with [None] nothing is said. *)
Inductive all_near : list (option quality) -> list (list f32) -> list (list R) -> Prop :=
| near_nil : all_near [] [] []
| near_cons q qs l r ls rs : match q with Some q => near q l r | None => True end -> all_near qs ls rs -> all_near (q :: qs) (l :: ls) (r :: rs).

(** A layer that computes with floats and the same layer that computes exactly: if their inputs are as close as [ins] says, then
    their outputs are as close as [outs] says. *)
Definition stays_close (layer : behaviour f32) (ideal : behaviour R) (ps : list (list f32)) (qs : list (list R)) (ins outs : list (option quality)) : Prop :=
  forall x y, all_near ins x y -> all_near outs (b_outputs layer x ps) (b_outputs ideal y qs).

(** The qualities of the inputs of each node are those of the outputs they are connected to. *)
Definition qualified (g : graph) (takes makes : nat -> list (option quality)) : Prop :=
  forall n, In n (nodes g) ->
    Forall2 (fun c q => exists p, c_node c = Some p /\ nth_error (makes p) (c_buffer c) = Some q) (inputs_of (heap g) n) (takes n).

(** Parameters whose exact values are these. *)
Definition exact_values (l : list f32) (r : list R) : Prop :=
  length l = length r /\ forall i, (i < length l)%nat -> value (nth i l f32_zero) (nth i r 0).

(** The sum of the absolute values of the weights that lead to output map [o] of a convolution. *)
Definition absolute_weights (c : conv) (d : dims) (weights : list R) (o : nat) : R :=
  nsum R_num (d_maps d / cv_group c) (fun i => nsum R_num (cv_kh c) (fun ky => nsum R_num (cv_kw c) (fun kx => Rabs (fn (weights_dims c d) weights kx ky i o)))).
(** Weights and biases of a convolution, with their exact values; [weight] bounds the sum of the weights of an output map, [bias] the biases. *)
Definition parameters_within (c : conv) (d : dims) (weight bias : R) (ps : list (list f32)) (qs : list (list R)) : Prop :=
  length (nth 0 ps []) = size (weights_dims c d) /\ length (nth 1 ps []) = size (bias_dims c) /\
  exact_values (nth 0 ps []) (nth 0 qs []) /\ exact_values (nth 1 ps []) (nth 1 qs []) /\
  forall o, (o < cv_omaps c)%nat -> absolute_weights c d (nth 0 qs []) o <= weight /\ Rabs (nth o (nth 1 qs []) 0) <= bias.
(** A convolution connected to an input of the shape [d], and its output of the shape [o]. *)
Definition convolves {D} (K : num D) (c : conv) (d o : dims) (st : @conv_state D) (old : list D) : Prop :=
  (exists wt bb, conv_ready K c st (d_width d) (d_height d) (d_maps d) (d_samples d) wt bb) /\
  o = mkDims (d_samples d) (cs_ow st) (cs_oh st) (cv_omaps c) /\ length old = size o.
(** How close the output of a convolution is: every error of its input arrives at most [weight] times, and the sum of the terms is rounded. *)
Definition convolved (c : conv) (d o : dims) (weight bias : R) (most error : R) : quality :=
  let n := (cv_kw c * cv_kh c * (d_maps d / cv_group c))%nat in
  mkQuality o (bias + weight * most)
    (weight * error + INR (n + 4) / IZR (2 ^ 23) * (bias + weight * (most + error)) + INR (5 * n + 4) / IZR (2 ^ 150)).

(** The exponential function of the C++ library: for arguments of at most [range] it is accurate to the relative error [delta]. *)
Definition accurate_exp (nexp : f32 -> f32) (range delta : R) : Prop :=
  forall a v, value a v -> Rabs v <= range -> exists e, value (nexp a) e /\ Rabs (e - exp v) <= delta * exp v.
