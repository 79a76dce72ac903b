(** What C75 says about a pass through a whole network.  Everything here is about real
    numbers and tensors as lists of them; nothing refers to how a network is run. *)
From Coq Require Import Reals Permutation.
From Verif Require Import Base Graph_Model Graph_Spec Backprop_Model.
Local Open Scope list_scope.

(** Sums and inner products. *)
Fixpoint rsum {A} (f : A -> R) (l : list A) : R := match l with [] => 0 | a :: l' => f a + rsum f l' end%R.
Definition dot (a b : list R) : R := rsum (fun e => nth e a 0 * nth e b 0)%R (seq 0 (length b)).
Definition dots (a b : list (list R)) : R := rsum (fun i => dot (nth i a []) (nth i b [])) (seq 0 (length b)).

(** The tensor [x], which depends on a number, keeps its size and changes at [v0] with the
    velocity [dx]: every element is differentiable. *)
Definition moves (x : R -> list R) (v0 : R) (dx : list R) : Prop :=
  (forall v, length (x v) = length dx) /\
  forall e, e < length dx -> derivable_pt_lim (fun v => nth e (x v) 0%R) v0 (nth e dx 0%R).
(** The same for a list of tensors. *)
Definition all_move (x : R -> list (list R)) (v0 : R) (dx : list (list R)) : Prop :=
  (forall v, length (x v) = length dx) /\ forall i, i < length dx -> moves (fun v => nth i (x v) []) v0 (nth i dx []).

Definition shape (x : list (list R)) : list nat := map (@length R) x.

(** How a network uses an input of a layer: the network asks the layer for the gradient of
    this input; or the input comes from the data set and does not depend on any parameter;
    or it does depend on parameters, but the network wants no gradient through this layer
    (the connection of a statistics layer). *)
Inductive use : Type := Asked | Constant | Observed.
Definition use_of (h : list node) (c : connection) : use :=
  if c_backprop c then Asked
  else match c_node c with
       | Some q => if is_input_at h q then Constant else Observed
       | None => Constant
       end.

(** The gradient a layer has stored in its input [i] by the end of its BackPropagate. *)
Definition handed (early back : list (option (list R))) (i : nat) : option (list R) :=
  match nth i back None with Some d => Some d | None => nth i early None end.
Definition or_nothing (d : option (list R)) : list R := match d with Some d => d | None => [] end.

(** A layer does its part of the chain rule at the point [x0] (its inputs), [p0] (its
    parameters): whatever curves its inputs and parameters move along, its outputs and its
    loss are differentiable, and for every gradient [delta] handed to it the gradients it
    hands on balance the account:
      <delta, velocity of the outputs> + velocity of the loss
        = sum over the inputs <gradient stored, velocity> + <parameter gradients, velocity>.
    It stores a gradient of the right size in every input it is asked for, and none in
    those it only observes. *)
Definition differentiates (B : behaviour R) (enabled : bool) (buffers : nat) (uses : list use) (x0 p0 : list (list R)) : Prop :=
  forall (x p : R -> list (list R)) v0 dx dp,
    x v0 = x0 -> p v0 = p0 -> all_move x v0 dx -> all_move p v0 dp ->
    (forall i v, nth_error uses i = Some Constant -> nth i (x v) [] = nth i x0 []) ->
    exists dy dl,
      length dy = buffers /\
      all_move (fun v => b_outputs B (x v) (p v)) v0 dy /\
      derivable_pt_lim (fun v => b_loss B (x v) (p v)) v0 dl /\
      forall delta, shape delta = shape dy ->
        let early := b_early B x0 p0 in
        let back := fst (b_backward B enabled x0 p0 delta) in
        let grads := snd (b_backward B enabled x0 p0 delta) in
        (dots delta dy + dl = rsum (fun i => dot (or_nothing (handed early back i)) (nth i dx [])) (seq 0 (length uses)) + dots grads dp)%R /\
        (forall i, nth_error uses i = Some Asked -> exists d, handed early back i = Some d /\ length d = length (nth i x0 [])) /\
        (forall i, nth_error uses i = Some Observed -> nth i early None = None /\ nth i back None = None).

(** The network hands every output of every layer that is not an input of the network
    exactly one gradient. *)
Definition fed (g : graph) : Prop :=
  forall n nd, In n (nodes g) -> nth_error (heap g) n = Some nd -> n_is_input nd = false ->
    Permutation (map b_buffer (flat_map (requests (heap g) n) (nodes g))) (seq 0 (n_buffers nd)).

(** The loss layers are registered, and only they have a loss. *)
Definition losses (g : graph) (layer : nat -> behaviour R) : Prop :=
  loss_nodes g = filter (node_has (layer_has k_loss) (heap g)) (nodes g) /\
  forall n, In n (nodes g) -> node_has (layer_has k_loss) (heap g) n = false -> forall x p, b_loss (layer n) x p = 0%R.

(** The inputs of the network read nothing and have no parameters. *)
Definition plain_inputs (g : graph) (params : R -> nat -> list (list R)) : Prop :=
  forall n nd, In n (nodes g) -> nth_error (heap g) n = Some nd -> n_is_input nd = true ->
    n_inputs nd = [] /\ forall v, params v n = [].

(** ** Networks as a program builds them *)
(** The nodes [history] of a program: connections read existing outputs; inputs of the
    network read nothing; every other layer has at most one output, and the gradient of
    this output is wanted by at least one layer. *)
Record well_used (h0 : list node) (history : list nat) : Prop := mkWellUsed {
  wu_outputs : forall k nd c q nq, In k history -> nth_error h0 k = Some nd -> In c (n_inputs nd) -> c_node c = Some q ->
    nth_error h0 q = Some nq -> c_buffer c < n_buffers nq;
  wu_inputs : forall n nd, In n history -> nth_error h0 n = Some nd -> n_is_input nd = true -> n_inputs nd = [];
  wu_used : forall n nd, In n history -> nth_error h0 n = Some nd -> n_is_input nd = false ->
    is_accumulation h0 n = false /\ n_buffers nd <= 1 /\
    (n_buffers nd = 1 -> exists k, In k history /\ wants_gradient h0 k n) }.

(** The parameters [theta] with element [e] of parameter tensor [p] of node [n] set to [v]. *)
Definition set_param (theta : nat -> list (list R)) (n p e : nat) (v : R) (k : nat) : list (list R) :=
  if k =? n then upd (theta n) p (upd (nth p (theta n) []) e v) else theta k.
