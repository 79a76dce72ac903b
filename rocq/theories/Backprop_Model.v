(** Model of one pass through a whole network: NetGraph::FeedForward (src/net/NetGraph.cpp:292-340),
    NetGraph::AggregateLoss (462-473) and NetGraph::BackPropagate (342-381) together with
    the memory the layers work on.  The order in which the layers run is that of
    [feed_forward] and [back_propagate] of Graph_Model.v.

    Simplifications: the contents of a tensor are the list of its elements, its shape is
    the layer's business; a layer is what it does to this memory ([behaviour]), without
    private state, so a layer that draws random numbers is the layer with these numbers
    fixed; layer view and LAYERTIME output are not modelled. *)
From Verif Require Import Base Num Graph_Model Accumulate_Model.
Local Open Scope list_scope.

(** What a layer does, as functions of the data of its inputs and of its parameters:
    - [b_outputs]: Layer::FeedForward, the data of its outputs;
    - [b_early]: Layer::FeedForward, the gradients it stores in its inputs (ErrorLayer.cpp:90-117
      does this), [None] for an input whose gradient it leaves alone;
    - [b_loss]: LossFunctionLayer::CalculateLossFunction, asked after FeedForward;
    - [b_backward]: Layer::BackPropagate with the flag of Layer::SetBackpropagationEnabled
      and the gradients found in its outputs: the gradients it stores in its inputs
      ([None]: left alone) and the gradients of its parameters. *)
Record behaviour (D : Type) : Type := mkBehaviour {
  b_outputs : list (list D) -> list (list D) -> list (list D);
  b_early : list (list D) -> list (list D) -> list (option (list D));
  b_loss : list (list D) -> list (list D) -> D;
  b_backward : bool -> list (list D) -> list (list D) -> list (list D) -> list (option (list D)) * list (list D) }.
Arguments mkBehaviour {D}. Arguments b_outputs {D}. Arguments b_early {D}. Arguments b_loss {D}. Arguments b_backward {D}.

(** The memory of the network: data and delta of the CombinedTensor in output [b] of node
    [n] (NetGraph.h:47-51), and the deltas of the parameters of the layer of node [n]. *)
Record memory (D : Type) : Type := mkMemory {
  m_data : nat -> nat -> list D;
  m_delta : nat -> nat -> list D;
  m_grad : nat -> list (list D) }.
Arguments mkMemory {D}. Arguments m_data {D}. Arguments m_delta {D}. Arguments m_grad {D}.

Section Pass.
Context {D : Type}.
Variable K : num D.
Variable layer : nat -> behaviour D.
(** The parameters of the layer of each node; no pass changes them. *)
Variable params : nat -> list (list D).

Definition inputs_of (h : list node) (n : nat) : list connection :=
  match nth_error h n with Some nd => n_inputs nd | None => [] end.
Definition buffers_of (h : list node) (n : nat) : nat :=
  match nth_error h n with Some nd => n_buffers nd | None => 0 end.

(** NetGraph.cpp:255-261: the tensor an input connection stands for is the output of the
    node it names (a null pointer is UB of the traversal already). *)
Definition input_data (h : list node) (m : memory D) (n : nat) : list (list D) :=
  map (fun c => match c_node c with Some q => m_data m q (c_buffer c) | None => [] end) (inputs_of h n).
(** Gradients stored in the outputs the connections [cs] name, in this order. *)
Fixpoint store_deltas (cs : list connection) (ds : list (option (list D))) (delta : nat -> nat -> list D) : nat -> nat -> list D :=
  match cs, ds with
  | c :: cs', d :: ds' =>
    store_deltas cs' ds'
      (match c_node c, d with
       | Some q, Some v => fun n b => if (n =? q) && (b =? c_buffer c) then v else delta n b
       | _, _ => delta
       end)
  | _, _ => delta
  end.

(** NetGraph.cpp:315-317: FeedForward of one layer. *)
Definition forward_node (h : list node) (m : memory D) (n : nat) : memory D :=
  let ins := input_data h m n in
  let outs := b_outputs (layer n) ins (params n) in
  mkMemory (fun k b => if (k =? n) && (b <? length outs) then nth b outs [] else m_data m k b)
           (store_deltas (inputs_of h n) (b_early (layer n) ins (params n)) (m_delta m))
           (m_grad m).
(** NetGraph.cpp:361-373: BackPropagate of one layer. *)
Definition backward_node (h : list node) (m : memory D) (e : nat * bool) : memory D :=
  let n := fst e in
  let r := b_backward (layer n) (snd e) (input_data h m n) (params n) (map (m_delta m n) (seq 0 (buffers_of h n))) in
  mkMemory (m_data m)
           (store_deltas (inputs_of h n) (fst r) (m_delta m))
           (fun k => if k =? n then snd r else m_grad m k).

(** NetGraph.cpp:292-303; [flagged]: the nodes with flag_ff_visited. *)
Definition feed_forward_memory (fuel : nat) (g : graph) (flagged : list nat) (m : memory D) : res (list nat * memory D) :=
  r <- feed_forward fuel g flagged ;;
  Ok (fst r, fold_left (forward_node (heap g)) (snd r) m).
(** NetGraph.cpp:342-353; [flagged]: the nodes with flag_bp_visited. *)
Definition back_propagate_memory (fuel : nat) (g : graph) (flagged : list nat) (m : memory D) : res (list nat * memory D) :=
  r <- back_propagate fuel g flagged ;;
  Ok (fst r, fold_left (backward_node (heap g)) (snd r) m).
(** NetGraph.cpp:462-473. *)
Definition aggregate_loss (g : graph) (m : memory D) : D :=
  fold_left (fun acc n => nadd K acc (b_loss (layer n) (input_data (heap g) m n) (params n))) (loss_nodes g) (n0 K).

(** What Trainer::Epoch asks of the network for one batch (Trainer.cpp:356-367): a forward
    pass, the loss, a backward pass.  Result: the loss, the flags and the memory afterwards. *)
Definition gradient_pass (fuel : nat) (g : graph) (ff bp : list nat) (m : memory D) : res (D * (list nat * list nat * memory D)) :=
  r1 <- feed_forward_memory fuel g ff m ;;
  r2 <- back_propagate_memory fuel g bp (snd r1) ;;
  Ok (aggregate_loss g (snd r1), (fst r1, fst r2, snd r2)).
End Pass.

(** GradientAccumulationLayer with [count] outputs (GradientAccumulationLayer.cpp:29-47,
    92-107): its outputs share the data of its input; BackPropagate adds the gradients of
    its outputs up in the gradient of its input, which held [old] before. *)
Definition accumulation_behaviour {D} (K : num D) (count samples eps : nat) (old : list D) : behaviour D :=
  mkBehaviour
    (fun ins _ => repeat (nth 0 ins []) count)
    (fun _ _ => [])
    (fun _ _ => n0 K)
    (fun _ _ _ deltas =>
       ([match accumulate D (n0 K) (nadd K) samples eps deltas old with Ok d => Some d | _ => None end], [])).
