(** Initial weights: NetGraph::InitializeWeights (src/net/NetGraph.cpp:423-445) and Layer::OnLayerConnect.

    Simplifications: the random number engine and distribution of the C++ library ([uniform]) and the range as a function of the
    gains ([range]) are parameters; the layers run in the order of Graph_Model.initialize_weights, which the layers do not
    influence. *)
From Coq Require Import String List.
From Verif Require Import Base Str_Model Config_Model Graph_Model.
Local Open Scope string_scope.
Local Open Scope list_scope.
Local Open Scope nat_scope.

(** What a layer's Gain depends on: ConvolutionLayer.h:63-65; MaxPoolingLayer.h:45-47, AdvancedMaxPoolingLayer.h:47-49,
    InputDownSamplingLayer.h:43-45; all other layers (Layer.h:104). *)
Inductive gkind : Type := GConv (kw kh maps : Z) | GPool (rw rh : Z) | GOther.

Section Init.
Context {D E : Type}.
(** std::uniform_real_distribution<datum>(low, high) applied to std::mt19937: the number and the engine afterwards. *)
Variable uniform : D -> D -> E -> D * E.
Variable neg : D -> D.
(** ConvolutionLayer.cpp:335: sqrt (6) / sqrt (gains) as a datum. *)
Variable range : Z -> D.

(** A layer: [gain] (Layer.h:141), the weights and the engine of a convolution (ConvolutionLayer.h:100), and all other parameters
    (biases, the parameters of HMaxActivationFunction). *)
Record glayer : Type := mkG { g_kind : gkind; g_gain : Z; g_weights : list D; g_rest : list (list D); g_engine : E }.

(** Gain(); unsigned arithmetic, and a division by zero is undefined. *)
Definition gain (l : glayer) : res Z :=
  match g_kind l with
  | GConv kw kh maps => Ok (to_uint (to_uint (kw * kh) * maps))
  | GPool rw rh => let a := to_uint (rw * rh) in if (a =? 0)%Z then UB else Ok (g_gain l / a)%Z
  | GOther => Ok (g_gain l)
  end.
(** Layer.h:96-98, ConvolutionLayer.cpp:329-331. *)
Definition sum_gains (ls : list glayer) : res Z :=
  foldm (fun acc l => g <- gain l ;; Ok (to_uint (acc + g))) ls 0%Z.

(** ConvolutionLayer.cpp:342-344: every element of the weights is replaced, in memory order. *)
Fixpoint draws (low high : D) (n : nat) (e : E) : list D * E :=
  match n with
  | O => ([], e)
  | S n' => let '(x, e1) := uniform low high e in let '(xs, e2) := draws low high n' e1 in (x :: xs, e2)
  end.

(** OnLayerConnect: Layer.h:95-99; ConvolutionLayer.cpp:328-348. *)
Definition on_layer_connect (l : glayer) (next : list glayer) : res glayer :=
  total <- sum_gains next ;;
  match g_kind l with
  | GConv _ _ _ =>
    own <- gain l ;;
    let r := range (to_uint (total + own)) in
    let '(ws, e) := draws (neg r) r (length (g_weights l)) (g_engine l) in
    Ok (mkG (g_kind l) (g_gain l) ws (g_rest l) e)
  | _ => Ok (mkG (g_kind l) total (g_weights l) (g_rest l) (g_engine l))
  end.

(** NetGraph.cpp:436-441: the layers behind the backprop connections of node [n]; layer [i] belongs to node [i]. *)
Definition connect_node (h : list node) (ls : list glayer) (n : nat) : res (list glayer) :=
  ts <- backprop_targets h n ;;
  next <- foldm (fun acc t => l <- load ls t ;; Ok (acc ++ [l])) ts [] ;;
  l <- load ls n ;;
  l' <- on_layer_connect l next ;;
  Ok (upd ls n l').

(** NetGraph.cpp:423-445. *)
Definition initialize_layers (fuel : nat) (g : graph) (flagged : list nat) (ls : list glayer) : res (list glayer) :=
  o <- initialize_weights fuel g flagged ;;
  foldm (connect_node (heap g)) (snd o) ls.

(** The engine of a new convolution layer: ConvolutionLayer.cpp:41 (values) and 72-98 (descriptor: the seed is read,
    but the engine is that of the default constructor). *)
Variables (seeded : Z -> E) (unseeded : E).
Definition engine_of_values (seed : Z) : E := seeded seed.
Definition engine_of_text (configuration : str) : res E :=
  _ <- parse_count configuration (s_ "seed") 0%Z ;; Ok unseeded.
End Init.
