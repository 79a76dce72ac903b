(** What C58 talks about. *)
From Coq Require Import Ascii String List.
From Verif Require Import Base Str_Model Config_Spec Graph_Model Graph_Spec Receptive_Model Factory_Model.
Local Open Scope string_scope.
Local Open Scope list_scope.
Local Open Scope nat_scope.

(** ** Configuration lines *)
Definition begins (word : string) (line : str) : Prop := exists rest, line = s_ word ++ rest.
Definition mentions (word : string) (line : str) : Prop := exists a b, line = a ++ s_ word ++ b.

Inductive stack : Type := A | B.
Definition pushes (s : stack) (line : str) : Prop := begins (match s with A => "pusha" | B => "pushb" end) line.
Definition pops (s : stack) (line : str) : Prop := begins (match s with A => "popa" | B => "popb" end) line.
Definition stack_command (line : str) : Prop := exists s, pushes s line \/ pops s line.
(** A layer that collects the connections of a stack. *)
Definition collects (line : str) : Prop := begins "?concat" line \/ begins "?sum" line.
(** The stack it collects is the one named with [stack=]: a name that begins with b stands for stack B, everything else for stack A. *)
Definition names_b (line : str) : Prop := exists l v, line = s_ "?" ++ l /\ has_value l (s_ "stack") v /\ begins "b" v.
(** A line that produces an output of the network. *)
Definition output_line (line : str) : Prop := begins "?output" line.
(** Such lines do not contain the words that are replaced or removed before a line is read. *)
Definition unmarked (line : str) : Prop := ~ mentions "(o)" line /\ ~ mentions "fullyconnected" line /\ ~ mentions "flatten" line.
Definition plain (line : str) : Prop := stack_command line \/ output_line line -> unmarked line.

(** The number of connections on stack [s] after the lines, if there are [n] before; None when
    a connection is taken from an empty stack or put on a full one. *)
Inductive depth (s : stack) : nat -> list str -> nat -> Prop :=
| depth_nil n : depth s n [] n
| depth_push n line lines m : pushes s line -> n < 64 -> depth s (S n) lines m -> depth s n (line :: lines) m
| depth_pop n line lines m : pops s line -> depth s n lines m -> depth s (S n) (line :: lines) m
| depth_other n line lines m : ~ pushes s line -> ~ pops s line -> depth s n lines m -> depth s n (line :: lines) m.

(** The lines keep to the limits of the stacks, which are empty at first. *)
Definition within_limits (lines : list str) : Prop := forall s, exists m, depth s 0 lines m.

(** The lines leave the lower [n] entries of stack [s] alone and end with them. *)
Inductive nested (s : stack) : nat -> list str -> Prop :=
| nested_nil : nested s 0 []
| nested_push n line lines : pushes s line -> nested s (S n) lines -> nested s n (line :: lines)
| nested_pop n line lines : pops s line -> nested s n lines -> nested s (S n) (line :: lines)
| nested_other n line lines : ~ pushes s line -> ~ pops s line -> nested s n lines -> nested s n (line :: lines).

(** ** Networks *)
(** A connection to an output of a node of the network. *)
Definition inside (g : graph) (c : connection) : Prop :=
  exists q m, c_node c = Some q /\ In q (nodes g) /\ nth_error (heap g) q = Some m /\ c_buffer c < n_buffers m.
(** The network so far is properly built (see Graph_Spec) and has no cycles; its nodes have names, are not input and
    output at once, and are connected to outputs that exist. *)
Record healthy (g : graph) : Prop := mkHealthy {
  healthy_sound : sound g;
  healthy_acyclic : acyclic (reads (heap g)) (nodes g);
  healthy_nodes : forall n nd, In n (nodes g) -> nth_error (heap g) n = Some nd ->
    n_name nd <> "" /\ ~ (n_is_input nd = true /\ n_is_output nd = true) /\ Forall (inside g) (n_inputs nd) }.
(** [data] leads to a node with the four outputs data, label, helper and weight. *)
Definition four_outputs (g : graph) (data : connection) : Prop :=
  inside g data /\ forall b, b < 4 -> inside g (mkConn (c_node data) b (c_backprop data)).

(** A node of the network stays the same, except that others may want gradients from it. *)
Definition same_node (m m' : node) : Prop :=
  n_layer m' = n_layer m /\ n_inputs m' = n_inputs m /\ n_buffers m' = n_buffers m /\ n_name m' = n_name m /\
  n_is_output m' = n_is_output m /\ n_is_input m' = n_is_input m.

(** [g'] is [g] with new nodes for the layers [made]: old nodes stay the same, each new node holds its layer,
    has the outputs of the layer and a name, is no input, and is in the registries it belongs to. *)
Record built {D} (g g' : graph) (made : list (nat * @layer D)) : Prop := mkBuilt {
  built_nodes : nodes g' = nodes g ++ map fst made;
  built_fresh : map fst made = seq (length (heap g)) (length made);
  built_heap : length (heap g') = length (heap g) + length made;
  built_same : forall n m, nth_error (heap g) n = Some m -> exists m', nth_error (heap g') n = Some m' /\ same_node m m';
  built_new : forall p l, In (p, l) made -> exists m, nth_error (heap g') p = Some m /\
    n_layer m = Some (kind_of l) /\ n_buffers m = buffers_of l /\ n_is_input m = false /\ n_name m <> "";
  built_outputs : output_nodes g' = output_nodes g ++ filter (node_has n_is_output (heap g')) (map fst made);
  built_losses : loss_nodes g' = loss_nodes g ++ filter (node_has (layer_has k_loss) (heap g')) (map fst made);
  built_others : stat_nodes g' = stat_nodes g /\ training_nodes g' = training_nodes g }.

(** [p] is a node of [h] with the inputs [cs]; AddNode switches off gradients to input nodes. *)
Definition has_inputs (h : list node) (p : nat) (cs : list connection) : Prop :=
  exists nd, nth_error h p = Some nd /\ n_inputs nd = map (settled h) cs.

(** The nodes that are not loss layers: their outputs can be used by later layers. *)
Definition produced {D} (made : list (nat * @layer D)) : list (nat * layer) :=
  filter (fun x => match snd x with LError _ => false | _ => true end) made.

(** The inputs of a layer behind the connection [c]: just [c], and for a concatenation (that of a spatial prior) also
    the third output of the data node, which needs no gradient. *)
Definition behind {D} (data : connection) (l : @layer D) (c : connection) : list connection :=
  match l with LConcatenation => [c; mkConn (c_node data) 2 false] | _ => [c] end.

(** Starting from connection [c], every node of [ps] has the output of the one before as its
    input; [c'] is output 0 of the last one (or [c] itself). *)
Fixpoint chain {D} (data : connection) (h : list node) (c : connection) (ps : list (nat * @layer D)) (c' : connection) : Prop :=
  match ps with
  | [] => c' = c
  | (p, l) :: ps' => has_inputs h p (behind data l c) /\
      exists backprop, chain data h (mkConn (Some p) 0 backprop) ps' c'
  end.

(** ** Building a network *)
(** The stacks, top first. *)
Definition stack_of {D} (st : @fstate D) (s : stack) : list connection := match s with A => f_a st | B => f_b st end.
(** The output nodes among new nodes. *)
Definition outputs_of {D} (g : graph) (made : list (nat * @layer D)) : list nat :=
  filter (node_has n_is_output (heap g)) (map fst made).
(** A loss layer compares output 0 of the node it belongs to with the labels, using the weights. *)
Definition loss_inputs (data last : connection) : list connection :=
  [mkConn (c_node last) 0 true; mkConn (c_node data) 1 (c_backprop data); mkConn (c_node data) 3 (c_backprop data)].

(** A line that causes no error by itself: its parameters can be read and are accepted. *)
Definition readable {D} (read_datum : str -> D) (d0 d1 : D) (rand : nat -> Z) (cfg : geo) (data : connection) (classes : Z)
  (add_loss_layer : bool) (line : str) : Prop :=
  exists st st', read_config_line read_datum d0 d1 rand cfg data classes add_loss_layer st line = Ok st'.

(** The layers [made] for a line that is no stack command, between the states [st] and [st'].
    The first new layer continues from the most recent output, or collects a whole stack; the others follow each other,
    and the last one has the most recent output afterwards. *)
Definition line_effect {D} (data : connection) (add_loss_layer : bool) (line : str) (st st' : @fstate D)
  (made : list (nat * @layer D)) : Prop :=
  (chain data (heap (f_graph st')) (f_last st) (produced made) (f_last st') \/
   collects line /\ exists s p l ps bp, (unmarked line -> (s = B <-> names_b line)) /\ produced made = (p, l) :: ps /\ has_inputs (heap (f_graph st')) p (stack_of st s) /\
     chain data (heap (f_graph st')) (mkConn (Some p) 0 bp) ps (f_last st')) /\
  (forall p w, In (p, LError w) made -> has_inputs (heap (f_graph st')) p (loss_inputs data (f_last st'))) /\
  (plain line -> output_line line -> exists q, outputs_of (f_graph st') made = [q] /\ f_last st' = mkConn (Some q) 0 true /\
     (add_loss_layer = true -> exists p w, In (p, LError w) made)).
