(** Model of Trainer::Epoch working on a network: the pass that Trainer_Model.v takes as a
    parameter is the one of Backprop_Model.v (Trainer.cpp:356-386).

    Simplifications: those of the two models; what a pass finds in the input layers (the
    samples DatasetInputLayer::SelectAndLoadSamples has drawn for it) is given by the
    number of the pass. *)
From Verif Require Import Base Num Graph_Model Backprop_Model Trainer_Model.
Local Open Scope list_scope.

(** What one pass leaves for the next: the visit flags of the nodes (NetGraph.h:47-51), the
    tensors, and how many batches have been loaded. *)
Record network_state (D : Type) : Type := mkState {
  s_ff : list nat;
  s_bp : list nat;
  s_memory : memory D;
  s_batches : nat }.
Arguments mkState {D}. Arguments s_ff {D}. Arguments s_bp {D}. Arguments s_memory {D}. Arguments s_batches {D}.

(** Layer::parameters() of the layer of node [n]; [ps] lists the parameters of the nodes [ns]
    (Trainer.cpp:371-374: the loop over graph_.GetNodes()). *)
Definition params_of {D} (ns : list nat) (ps : list (list (list D))) (n : nat) : list (list D) :=
  match find (fun e => fst e =? n) (combine ns ps) with Some e => snd e | None => [] end.

(** Trainer.cpp:356-374: FeedForward, the losses of the loss nodes, BackPropagate, and the
    gradients in the order of the loop over nodes and parameters.  [layer b] are the
    layers as they find their tensors in pass [b].  (The failures are unreachable, C76.) *)
Definition network_pass {D} (layer : nat -> nat -> behaviour D) (fuel : nat) (g : graph)
    (w : network_state D) (ps : list (list (list D))) : network_state D * list D * list (list D) :=
  let L := layer (s_batches w) in
  let theta := params_of (nodes g) ps in
  match r1 <- feed_forward_memory L theta fuel g (s_ff w) (s_memory w) ;;
        r2 <- back_propagate_memory L theta fuel g (s_bp w) (snd r1) ;; Ok (r1, r2) with
  | Ok ((ff, m1), (bp, m2)) =>
    (mkState ff bp m2 (S (s_batches w)),
     map (fun n => b_loss (L n) (input_data (heap g) m1 n) (theta n)) (loss_nodes g),
     concat (map (m_grad m2) (nodes g)))
  | _ => (w, [], [])
  end.
