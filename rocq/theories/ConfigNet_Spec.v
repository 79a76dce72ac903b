(** What C87 talks about. *)
From Verif Require Import Base Graph_Model BackpropLayers_Model.
Local Open Scope list_scope.

(** [shape p i]: width, height and maps of output [i] of node [p]; the shape of what a connection delivers. *)
Definition delivers (shape : nat -> nat -> dims) (c : connection) : dims :=
  match c_node c with Some q => shape q (c_buffer c) | None => mkDims 0 0 0 0 end.
(** The first output of a node, or the helper maps of the data node: not the labels (output 1) and not the weights (output 3). *)
Definition no_secret (data c : connection) : Prop := c_buffer c = 0 \/ c_node c = c_node data /\ c_buffer c = 2.
