(** A network that is run to predict: the convolution in testing mode, and the layers between the dataset input layer and
    the output as one function of a batch. *)
From Verif Require Import Base Num Float32 Tensor_Model ConvLayer_Model Graph_Model DatasetInput_Model Backprop_Model BackpropLayers_Model.
Local Open Scope list_scope.

(** ConvolutionLayer.cpp:203-266 in testing mode: nothing is dropped, and the output is scaled by what
    dropout would have left (lines 204-205).  BackPropagate is not called. *)
Definition testing_conv_behaviour {D} (K : num D) (c : conv) (dropout : D) (d : dims) (st : @conv_state D) (old_out : list D) : behaviour D :=
  let o := mkDims (d_samples d) (cs_ow st) (cs_oh st) (cv_omaps c) in
  mkBehaviour
    (fun ins ps => [written (r <- conv_ff K c true dropout (with_params c d st ps) (tensor_of d (nth 0 ins [])) (tensor_of o old_out) ;; Ok (snd r))])
    (fun _ _ => []) (fun _ _ => n0 K) (fun _ _ _ _ => ([], [])).

(** NetGraph.cpp:292-345 on a graph whose node [input] is the dataset input layer (its outputs are image, label, helper and
    weight, DatasetInputLayer.cpp:62-103); the prediction is output [buffer] of the node [out], a tensor of the shape [od].
    [params_of] says which of the trainer's parameters belong to which node. *)
Definition graph_net (K : num f32) (g : graph) (fuel : nat) (flagged : list nat) (m : memory f32) (input : nat) (layer : nat -> behaviour f32)
    (params_of : list (list (list f32)) -> nat -> list (list f32)) (out buffer : nat) (od : dims)
    (ps : list (list (list f32))) (o : outputs f32) : res (tensor f32 * list f32) :=
  let loaded := map elements_of [o_data o; o_label o; o_helper o; o_weight o] in
  let layers n := if n =? input then input_behaviour K loaded else layer n in
  r <- feed_forward_memory layers (params_of ps) fuel g flagged m ;;
  Ok (tensor_of od (m_data (snd r) out buffer), [aggregate_loss K layers (params_of ps) g (snd r)]).
