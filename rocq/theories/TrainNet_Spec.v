(** What C76 says about training a network. *)
From Coq Require Import Reals Relations.
From Verif Require Import Base Num RealNum Graph_Model Graph_Spec Backprop_Model Backprop_Spec BackpropLayers_Model BackpropLayers_Spec BackpropNet_Spec.
Local Open Scope nat_scope.
Local Open Scope list_scope.

(** The network reports the loss [l] for the parameters [theta], whatever earlier passes
    left in its memory and flags. *)
Definition reports (layer : nat -> behaviour R) (fuel : nat) (g : graph) (theta : nat -> list (list R)) (l : R) : Prop :=
  forall ff bp m, exists st, gradient_pass R_num layer theta fuel g ff bp m = Ok (l, st).

(** No layer of the program meets an input at which it has no derivative. *)
Definition meets_no_kink (layer : nat -> behaviour R) (fuel : nat) (g : graph) (theta : nat -> list (list R)) (history : list nat) (parts : nat -> part) : Prop :=
  forall ff m ff1 m1, feed_forward_memory layer theta fuel g ff m = Ok (ff1, m1) ->
    forall k, In k history -> smooth (parts k) (input_data (heap g) m1 k).

(** The program of a network that can be trained: the layers [parts b] it works with in pass
    [b] fit together and have the same parameters in every pass; [theta] are the
    parameters. *)
Record trainable (h0 : list node) (history : list nat) (parts : nat -> nat -> part) (theta : nat -> list (list R)) : Prop := mkTrainable {
  tr_once : NoDup history;
  tr_closed : closed h0 history;
  tr_layers : forall n nd, In n history -> nth_error h0 n = Some nd -> n_layer nd <> None;
  tr_fresh : forall n nd, nth_error h0 n = Some nd -> n_backprop nd = [];
  tr_acyclic : acyclic (reads h0) history;
  tr_composed : forall b, composed h0 history (parts b);
  tr_same : forall b n, In n history -> tunes (parts b n) = tunes (parts 0 n);
  tr_params : forall n, In n history -> Forall2 shaped (tunes (parts 0 n)) (theta n);
  tr_none : forall n, ~ In n history -> theta n = [] }.

(** The parameter [e] of tensor [p] of node [n]. *)
Definition param (theta : nat -> list (list R)) (n p e : nat) : R := nth e (nth p (theta n) []) 0%R.
