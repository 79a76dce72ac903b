(** Model of class Conv::NetGraph (include/cn24/net/NetGraph.h, NetGraphNode.h,
    src/net/NetGraph.cpp) as far as it concerns the structure of the network and the
    order in which layers run.

    Simplifications: NetGraphNode objects live in a list (the heap) and pointers to them
    are positions in that list; pointers to objects that do not exist and null pointers
    that are dereferenced are UB; running a layer is an event; a layer is described by
    the results of the dynamic_casts NetGraph makes and by its number of outputs;
    layer view and LAYERTIME output are not modelled. *)
From Coq Require Import String Decimal DecimalString DecimalNat.
From Verif Require Import Base.
Local Open Scope list_scope.

(** NetGraph.h:31-38. *)
Record connection : Type := mkConn { c_node : option nat; c_buffer : nat; c_backprop : bool }.
(** NetGraph.h:40-45. *)
Record bconnection : Type := mkB { b_node : nat; b_buffer : nat }.

(** What NetGraph asks about a layer (NetGraph.cpp:52-57, 214). *)
Record layer_kind : Type := mkKind {
  k_stat : bool; k_loss : bool; k_training : bool; k_accumulation : bool }.

(** NetGraphNode.h:46-63 (flags are kept outside, see [dfs]). *)
Record node : Type := mkNode {
  n_layer : option layer_kind;
  n_inputs : list connection;
  n_backprop : list bconnection;
  n_buffers : nat;                 (* output_buffers.size() *)
  n_name : string;
  n_is_output : bool;
  n_is_input : bool }.

(** NetGraph.h:94-105. *)
Record graph : Type := mkGraph {
  heap : list node;
  nodes : list nat;
  input_nodes : list nat;
  output_nodes : list nat;
  stat_nodes : list nat;
  loss_nodes : list nat;
  training_nodes : list nat;
  next_uid : nat }.                (* last_uid + 1 *)

Definition with_heap (g : graph) (h : list node) : graph :=
  mkGraph h (nodes g) (input_nodes g) (output_nodes g) (stat_nodes g) (loss_nodes g) (training_nodes g) (next_uid g).

Definition set_inputs (n : node) (cs : list connection) : node :=
  mkNode (n_layer n) cs (n_backprop n) (n_buffers n) (n_name n) (n_is_output n) (n_is_input n).
Definition set_backprop (n : node) (bs : list bconnection) : node :=
  mkNode (n_layer n) (n_inputs n) bs (n_buffers n) (n_name n) (n_is_output n) (n_is_input n).
Definition set_name (n : node) (s : string) : node :=
  mkNode (n_layer n) (n_inputs n) (n_backprop n) (n_buffers n) s (n_is_output n) (n_is_input n).

(** NetGraph.cpp:38-40: "node" followed by the decimal number. *)
Definition auto_name (uid : nat) : string :=
  String.append "node" (NilEmpty.string_of_uint (Nat.to_uint uid)).

(** NetGraph.cpp:60-68: one input connection of node [p].  The [i]-th connection is
    rewritten in place. *)
Definition add_connection (p : nat) (h : list node) (i : nat) : res (list node) :=
  n <- load h p ;;
  c <- load (n_inputs n) i ;;
  if c_backprop c then
    match c_node c with
    | None => UB
    | Some q =>
      m <- load h q ;;
      if n_is_input m
      then Ok (upd h p (set_inputs n (upd (n_inputs n) i (mkConn (c_node c) (c_buffer c) false))))
      else Ok (upd h q (set_backprop m (n_backprop m ++ [mkB p (c_buffer c)])))
    end
  else Ok h.

(** NetGraph.cpp:24-69. *)
Definition add_node (g : graph) (ptr : option nat) : res graph :=
  match ptr with
  | None => Fatal
  | Some p =>
    n <- load (heap g) p ;;
    match n_layer n with
    | None => Fatal
    | Some k =>
      let unnamed := String.eqb (n_name n) "" in
      let n1 := if unnamed then set_name n (auto_name (next_uid g)) else n in
      let h1 := upd (heap g) p n1 in
      h2 <- foldm (add_connection p) (seq 0 (length (n_inputs n1))) h1 ;;
      let reg (b : bool) (l : list nat) := if b then l ++ [p] else l in
      Ok (mkGraph h2 (nodes g ++ [p])
            (reg (n_is_input n) (input_nodes g)) (reg (n_is_output n) (output_nodes g))
            (reg (k_stat k) (stat_nodes g)) (reg (k_loss k) (loss_nodes g)) (reg (k_training k) (training_nodes g))
            (if unnamed then S (next_uid g) else next_uid g))
    end
  end.

(** A NetGraph that has just been constructed, in a program that has allocated [h]. *)
Definition new_graph (h : list node) : graph := mkGraph h [] [] [] [] [] [] 0.

(** NetGraph.cpp:78-147.  A connection is only checked for its buffer; the search in line
    88 looks for the node itself, which is always found. *)
Definition connection_okay (h : list node) (c : connection) : res bool :=
  match c_node c with
  | None => Ok false
  | Some q => m <- load h q ;; Ok (c_buffer c <? n_buffers m)
  end.
Definition node_okay (h : list node) (n : node) : res bool :=
  foldm (fun ok c => b <- connection_okay h c ;; Ok (ok && b)) (n_inputs n) true.
Definition complete_step (h : list node) (st : nat * nat * bool) (p : nat) : res (nat * nat * bool) :=
  let '(ins, outs, complete) := st in
  n <- load h p ;;
  match n_layer n with
  | None => UB                                 (* line 130 dereferences node->layer *)
  | Some _ =>
    conns <- node_okay h n ;;
    let okay := conns && negb (String.eqb (n_name n) "") && negb (n_is_input n && n_is_output n) in
    Ok (if n_is_input n then S ins else ins, if n_is_output n then S outs else outs, complete && okay)
  end.
Definition is_complete (g : graph) : res bool :=
  st <- foldm (complete_step (heap g)) (nodes g) (0, 0, true) ;;
  let '(ins, outs, complete) := st in
  Ok (complete && negb (ins =? 0) && negb (outs =? 0)).

(** ** Depth first traversals *)

(** The recursion shared by InitializeNode (253-290), FeedForward (305-340),
    BackPropagate (355-381) and InitializeWeights (434-445): nothing to do for a flagged
    node, otherwise first the nodes [succ] names, then the node itself ([event]), then
    the flag.  State: the flagged nodes and the events so far.  The C++ recursion has no
    limit but the stack; [fuel] is that limit and running out of it is UB. *)
Section Dfs.
Variable E : Type.
Variable succ : nat -> res (list nat).
Variable event : nat -> E.
Fixpoint dfs (fuel : nat) (st : list nat * list E) (n : nat) : res (list nat * list E) :=
  match fuel with
  | O => UB
  | S f =>
    if existsb (Nat.eqb n) (fst st) then Ok st
    else
      ss <- succ n ;;
      st' <- foldm (dfs f) ss st ;;
      Ok (n :: fst st', snd st' ++ [event n])
  end.
End Dfs.
Arguments dfs {E} succ event fuel st n.

(** [connection.node] of every input connection; a null pointer is dereferenced. *)
Definition input_targets (h : list node) (n : nat) : res (list nat) :=
  nd <- load h n ;;
  foldm (fun acc c => match c_node c with Some q => Ok (acc ++ [q]) | None => UB end) (n_inputs nd) [].
Definition backprop_targets (h : list node) (n : nat) : res (list nat) :=
  nd <- load h n ;; Ok (map b_node (n_backprop nd)).

(** NetGraph.cpp:296-303: flags of [todo] are cleared on request, other nodes keep theirs. *)
Definition clear_flags (clear_flag : bool) (todo flagged : list nat) : list nat :=
  if clear_flag then filter (fun x => negb (existsb (Nat.eqb x) todo)) flagged else flagged.

(** NetGraph.cpp:292-340; result: flagged nodes afterwards, layers in running order. *)
Definition feed_forward_nodes (fuel : nat) (h : list node) (todo : list nat) (clear_flag : bool) (flagged : list nat)
  : res (list nat * list nat) :=
  foldm (dfs (input_targets h) (fun n => n) fuel) todo (clear_flags clear_flag todo flagged, []).
Definition feed_forward (fuel : nat) (g : graph) (flagged : list nat) : res (list nat * list nat) :=
  feed_forward_nodes fuel (heap g) (nodes g) true flagged.

(** NetGraph.cpp:361-372: the flag handed to the layer. *)
Definition do_backprop (h : list node) (n : nat) : bool :=
  match nth_error h n with Some nd => existsb c_backprop (n_inputs nd) | None => false end.

(** NetGraph.cpp:342-381; events: layer and whether it computes input gradients. *)
Definition back_propagate_nodes (fuel : nat) (h : list node) (todo : list nat) (clear_flag : bool) (flagged : list nat)
  : res (list nat * list (nat * bool)) :=
  foldm (dfs (backprop_targets h) (fun n => (n, do_backprop h n)) fuel) todo (clear_flags clear_flag todo flagged, []).
Definition back_propagate (fuel : nat) (g : graph) (flagged : list nat) : res (list nat * list (nat * bool)) :=
  back_propagate_nodes fuel (heap g) (nodes g) true flagged.

(** NetGraph.cpp:247-290 (the order of InitializeNode; [initialized] is never cleared). *)
Definition initialize_nodes (fuel : nat) (g : graph) (initialized : list nat) : res (list nat * list nat) :=
  foldm (dfs (input_targets (heap g)) (fun n => n) fuel) (nodes g) (initialized, []).

(** NetGraph.cpp:423-445: order of the OnLayerConnect calls. *)
Definition initialize_weights (fuel : nat) (g : graph) (flagged : list nat) : res (list nat * list nat) :=
  foldm (dfs (backprop_targets (heap g)) (fun n => n) fuel) (nodes g) (clear_flags true (nodes g) flagged, []).

(** ** Insertion of gradient accumulation nodes (NetGraph.cpp:207-245) *)

Definition accumulation_kind : layer_kind := mkKind false false false true.
(** NetGraph.cpp:219-220, GradientAccumulationLayer.h:40-48, NetGraph.h:34. *)
Definition accumulation_node (p count : nat) : node :=
  mkNode (Some accumulation_kind) [mkConn (Some p) 0 true] [] count "" false false.

Definition ptr_eqb (a : option nat) (b : nat) : bool := match a with Some q => q =? b | None => false end.

(** NetGraph.cpp:227-233: all input connections of one consumer, for one backprop
    connection with current buffer number [buf]; result: the connections, the new buffer
    number of the backprop connection, the next output. *)
Fixpoint redirect (p ga : nat) (cs : list connection) (buf b : nat) : list connection * nat * nat :=
  match cs with
  | [] => ([], buf, b)
  | c :: cs' =>
    if ptr_eqb (c_node c) p && (c_buffer c =? buf) && c_backprop c then
      let '(r, buf', b') := redirect p ga cs' b (S b) in
      (mkConn (Some ga) b true :: r, buf', b')
    else
      let '(r, buf', b') := redirect p ga cs' buf b in (c :: r, buf', b')
  end.

(** NetGraph.cpp:225-236: state is the heap, the next output and the backprop
    connections collected for the new node. *)
Definition redirect_one (p ga : nat) (st : list node * nat * list bconnection) (bc : bconnection)
  : res (list node * nat * list bconnection) :=
  let '(h, b, acc) := st in
  if b_node bc =? ga then Ok st
  else
    m <- load h (b_node bc) ;;
    let '(cs, buf, b') := redirect p ga (n_inputs m) (b_buffer bc) b in
    Ok (upd h (b_node bc) (set_inputs m cs), b', acc ++ [mkB (b_node bc) buf]).

(** NetGraph.cpp:213-244: one node of the sweep. *)
Definition insert_accumulation (st : graph * bool) (p : nat) : res (graph * bool) :=
  let '(g, none_found) := st in
  n <- load (heap g) p ;;
  match n_layer n with
  | None => if 1 <? length (n_backprop n) then UB else Ok st
  | Some k =>
    if (1 <? length (n_backprop n)) && negb (k_accumulation k) then
      let ga := length (heap g) in
      g1 <- add_node (with_heap g (heap g ++ [accumulation_node p (length (n_backprop n))])) (Some ga) ;;
      n1 <- load (heap g1) p ;;
      r <- foldm (redirect_one p ga) (n_backprop n1) (heap g1, 0, []) ;;
      let '(h2, _, acc) := r in
      gn <- load h2 ga ;;
      let h3 := upd h2 ga (set_backprop gn (n_backprop gn ++ acc)) in
      n2 <- load h3 p ;;
      (* lines 239-242: only the connections to the new node stay *)
      let h4 := upd h3 p (set_backprop n2 (filter (fun bc => b_node bc =? ga) (n_backprop n2))) in
      Ok (with_heap g1 h4, false)
    else Ok st
  end.

(** NetGraph.cpp:210-245; [fuel] bounds the number of sweeps. *)
Fixpoint insert_sweeps (fuel : nat) (g : graph) : res graph :=
  match fuel with
  | O => UB
  | S f =>
    r <- foldm insert_accumulation (nodes g) (g, true) ;;
    let '(g', done) := r in
    if done then Ok g' else insert_sweeps f g'
  end.
