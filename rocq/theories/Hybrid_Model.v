(** The two networks of a hybrid training session (tools/trainNetwork.cpp): one is trained on patches, the other one tested on
    whole images; and the sizes of the tensors and parameters of a network built by AddLayers.

    Simplification: sizes are numbers without upper limit, and [None] stands for an input a layer refuses (CreateOutputs
    returns false or logs a fatal error) or cannot handle (a division by zero). *)
From Coq Require Import String List.
From Verif Require Import Base Str_Model Graph_Model Receptive_Model Factory_Model.
Local Open Scope list_scope.

Section Hybrid.
Context {D : Type} (read_datum : str -> D) (d0 d1 : D) (rand : nat -> Z).
Notation layer := (@layer D).

(** trainNetwork.cpp:87 and 163 ([training = true]), 200-201 ([training = false]): a factory for the text of the
    configuration and a network with its layers behind the node of [data] in the network [g].  The seeds are the same. *)
Definition assemble (training : bool) (text : str) (data : connection) (classes : Z) (g : graph) : res (fstate * bool) :=
  cfg <- factory training text ;;
  add_layers read_datum d0 d1 rand cfg data classes true text g.

(** The size of a tensor (Tensor.h). *)
Record dims : Type := mkDims { d_samples : Z; d_width : Z; d_height : Z; d_maps : Z }.
Definition elements (d : dims) : Z := (d_samples d * d_width d * d_height d * d_maps d)%Z.

(** ConvolutionLayer.cpp:124-125, AdvancedMaxPoolingLayer.cpp:62-63: division of ints. *)
Definition window (pad size kernel stride : Z) : Z := (Z.quot (pad + pad + size - kernel) stride + 1)%Z.

(** CreateOutputs of each layer: the outputs for the given inputs.
    ResizeLayer.cpp:37-63, ConvolutionLayer.cpp:100-144, MaxPoolingLayer.cpp:36-70, InputDownSamplingLayer.cpp:23-57,
    AdvancedMaxPoolingLayer.cpp:44-74, LocalResponseNormalizationLayer.cpp:27-53, NonLinearityLayer.cpp:16-43 (sigmoid, tanh and
    ReLU), HMaxActivationFunction.cpp:67-94, UpscaleLayer.cpp:23-50, ConcatenationLayer.cpp:19-52, SumLayer.cpp:20-58,
    ErrorLayer.cpp:24-60. *)
Definition create_outputs (l : layer) (inputs : list dims) : option (list dims) :=
  match l, inputs with
  | LResize bx by_, [i] => Some [mkDims (d_samples i) (d_width i + bx) (d_height i + by_) (d_maps i)]
  | LConvolution kx ky k sx sy px py group _ _ _, [i] =>
    if ((sx =? 0) || (sy =? 0) || (group =? 0))%Z then None else
    let w := window px (d_width i) kx sx in let h := window py (d_height i) ky sy in
    if ((w <=? 0) || (h <=? 0))%Z then None else
    if negb (d_maps i mod group =? 0)%Z then None else Some [mkDims (d_samples i) w h k]
  | LMaxPooling kx ky, [i] | LDownSampling kx ky, [i] =>
    if ((kx =? 0) || (ky =? 0))%Z then None else
    if (negb (d_width i mod kx =? 0) || negb (d_height i mod ky =? 0))%Z then None else
    Some [mkDims (d_samples i) (d_width i / kx) (d_height i / ky) (d_maps i)]
  | LAdvancedMaxPooling kx ky sx sy, [i] =>
    if ((sx =? 0) || (sy =? 0))%Z then None else
    Some [mkDims (d_samples i) (window 0 (d_width i) kx sx) (window 0 (d_height i) ky sy) (d_maps i)]
  | LNormalization _ _ _ _, [i] | LSigmoid, [i] | LHMax _ _, [i] | LReLU, [i] | LTanh, [i] => Some [i]
  | LUpscale fx fy, [i] => Some [mkDims (d_samples i) (d_width i * fx) (d_height i * fy) (d_maps i)]
  | LConcatenation, [a; b] =>
    if negb (d_samples a =? d_samples b)%Z then None else Some [mkDims (d_samples a) (d_width a) (d_height b) (d_maps a + d_maps b)]
  | LSum, [a; b] =>
    if negb (d_samples a =? d_samples b)%Z then None else
    if negb (d_maps a =? d_maps b)%Z then None else Some [mkDims (d_samples a) (d_width a) (d_height b) (d_maps a)]
  | LError _, [a; b; c] =>
    if (negb (d_samples a =? d_samples b) || negb (elements a =? elements b) || negb (d_samples a =? d_samples c))%Z then None else Some []
  | _, _ => None
  end.

(** The parameters a layer creates when it is connected: ConvolutionLayer.cpp:184-198, HMaxActivationFunction.cpp:107-111. *)
Definition parameters_of (l : layer) (inputs : list dims) : list dims :=
  match l, inputs with
  | LConvolution kx ky k _ _ _ _ group _ _ _, i :: _ => [mkDims k kx ky (d_maps i / group); mkDims 1 k 1 1]
  | LHMax _ _, _ => [mkDims 1 2 1 1]
  | _, _ => []
  end.
End Hybrid.
