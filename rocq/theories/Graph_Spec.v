(** What the properties C17-C19, C21 and C22 of NetGraph talk about. *)
From Coq Require Import String Relations Permutation.
From Verif Require Import Base Graph_Model.
Local Open Scope list_scope.

(** Node [n] takes input from node [q]. *)
Definition reads (h : list node) (n q : nat) : Prop :=
  exists nd c, nth_error h n = Some nd /\ In c (n_inputs nd) /\ c_node c = Some q.
(** Node [k] takes input from node [n] and wants to hand a gradient back to it. *)
Definition wants_gradient (h : list node) (k n : nat) : Prop :=
  exists nd c, nth_error h k = Some nd /\ In c (n_inputs nd) /\ c_node c = Some n /\ c_backprop c = true.

(** No node of [ns] depends on itself. *)
Definition acyclic (R : nat -> nat -> Prop) (ns : list nat) : Prop := forall n, In n ns -> ~ clos_trans nat R n n.

(** Every node of [ns] exists and all its connections lead to nodes of [ns]. *)
Definition closed (h : list node) (ns : list nat) : Prop :=
  forall n, In n ns -> exists nd, nth_error h n = Some nd /\
    forall c, In c (n_inputs nd) -> exists q, c_node c = Some q /\ In q ns.

(** [x] occurs in [l], and before [y]. *)
Definition before {A} (x y : A) (l : list A) : Prop := exists a b c, l = a ++ x :: b ++ y :: c.

(** The gradients node [k] wants to hand to node [n], one entry per connection. *)
Definition requests (h : list node) (n k : nat) : list bconnection :=
  match nth_error h k with
  | Some nd => map (fun c => mkB k (c_buffer c))
                   (filter (fun c => ptr_eqb (c_node c) n && c_backprop c) (n_inputs nd))
  | None => []
  end.

(** The backprop connections of every node are the gradients wanted from it. *)
Definition consistent (g : graph) : Prop :=
  forall n nd, nth_error (heap g) n = Some nd ->
    Permutation (n_backprop nd) (flat_map (requests (heap g) n) (nodes g)).

(** A network as built by AddNode: every node once, with a layer, all connections inside
    the network, backprop connections consistent, none on input nodes. *)
Record sound (g : graph) : Prop := mkSound {
  sound_once : NoDup (nodes g);
  sound_layer : forall n nd, In n (nodes g) -> nth_error (heap g) n = Some nd -> n_layer nd <> None;
  sound_closed : closed (heap g) (nodes g);
  sound_consistent : consistent g;
  sound_inputs : forall n nd, nth_error (heap g) n = Some nd -> n_is_input nd = true -> n_backprop nd = [] }.

(** ** C21 *)
(** A sequence of AddNode calls. *)
Definition add_nodes (g : graph) (ps : list (option nat)) : res graph := foldm add_node ps g.

Definition is_input_at (h : list node) (n : nat) : bool :=
  match nth_error h n with Some nd => n_is_input nd | None => false end.
Definition node_has (f : node -> bool) (h : list node) (n : nat) : bool :=
  match nth_error h n with Some nd => f nd | None => false end.
Definition layer_has (f : layer_kind -> bool) (nd : node) : bool :=
  match n_layer nd with Some k => f k | None => false end.

(** A connection that wants a gradient from an input node stops wanting it. *)
Definition settled (h : list node) (c : connection) : connection :=
  match c_node c with
  | Some q => if c_backprop c && is_input_at h q then mkConn (c_node c) (c_buffer c) false else c
  | None => c
  end.

(** A call that NetGraph can carry out: the node exists and has a layer, and a
    connection that wants a gradient leads to an existing node. *)
Definition addable (h : list node) (p : nat) : Prop :=
  exists nd, nth_error h p = Some nd /\ n_layer nd <> None /\
    forall c, In c (n_inputs nd) -> c_backprop c = true -> exists q, c_node c = Some q /\ q < length h.

(** ** C19 *)
Definition connection_at (h : list node) (k i : nat) : option connection :=
  match nth_error h k with Some nd => nth_error (n_inputs nd) i | None => None end.
Definition kind_at (h : list node) (n : nat) : option layer_kind :=
  match nth_error h n with Some nd => n_layer nd | None => None end.
Definition backprop_count (h : list node) (n : nat) : nat :=
  match nth_error h n with Some nd => length (n_backprop nd) | None => 0 end.
Definition is_accumulation (h : list node) (n : nat) : bool :=
  match kind_at h n with Some k => k_accumulation k | None => false end.
(** A node whose gradient several consumers want and that does not add them up itself. *)
Definition shared (h : list node) (n : nat) : bool := (1 <? backprop_count h n) && negb (is_accumulation h n).

(** In [g], node [ga] is the accumulation node put between the formerly shared node [n]
    of [g0] and its consumers: it reads the output of [n]; [n] hands its gradient
    request to it alone; every connection of [g0] that wanted a gradient from [n] now
    reads an output of [ga], and these outputs, one per connection, are all of [ga]'s
    outputs, each once. *)
Definition accumulates (g0 g : graph) (n ga : nat) : Prop :=
  In ga (nodes g) /\ ~ In ga (nodes g0) /\
  (exists nd, nth_error (heap g) ga = Some nd /\ n_layer nd = Some accumulation_kind /\
     n_inputs nd = [mkConn (Some n) 0 true] /\ n_buffers nd = backprop_count (heap g0) n /\
     n_is_input nd = false /\ n_is_output nd = false) /\
  (exists nd, nth_error (heap g) n = Some nd /\ n_backprop nd = [mkB ga 0]) /\
  (forall k i c, In k (nodes g0) -> connection_at (heap g0) k i = Some c ->
     c_node c = Some n -> c_backprop c = true ->
     exists b, b < backprop_count (heap g0) n /\ connection_at (heap g) k i = Some (mkConn (Some ga) b true)) /\
  Permutation (map b_buffer (flat_map (requests (heap g) ga) (nodes g))) (seq 0 (backprop_count (heap g0) n)).

(** ** C22 *)
(** What a user expects a usable network to satisfy, as far as IsComplete looks. *)
Definition usable (g : graph) : Prop :=
  (exists n nd, In n (nodes g) /\ nth_error (heap g) n = Some nd /\ n_is_input nd = true) /\
  (exists n nd, In n (nodes g) /\ nth_error (heap g) n = Some nd /\ n_is_output nd = true) /\
  (forall n, In n (nodes g) -> exists nd, nth_error (heap g) n = Some nd /\
     n_layer nd <> None /\ n_name nd <> ""%string /\ ~ (n_is_input nd = true /\ n_is_output nd = true) /\
     forall c, In c (n_inputs nd) -> exists q m,
       c_node c = Some q /\ nth_error (heap g) q = Some m /\ c_buffer c < n_buffers m).
(** No dangling pointers and no node without layer. *)
Definition inspectable (g : graph) : Prop :=
  forall n, In n (nodes g) -> exists nd, nth_error (heap g) n = Some nd /\ n_layer nd <> None /\
    forall c q, In c (n_inputs nd) -> c_node c = Some q -> q < length (heap g).
