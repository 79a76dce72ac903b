(** The layers a configuration can name (Factory_Model), when the network runs to predict: which part of a network
    (BackpropLayers_Model) each of them is, for batches of any size.  Memory that was there before and is overwritten is arbitrary. *)
From Verif Require Import Base Num Tensor_Model Act_Model Layers_Model ConvLayer_Model Float32 Pool_Model LRN_Model Backprop_Model BackpropLayers_Model
  BackpropLayers_Spec Batch_Model Batch_Spec Factory_Model Batch_Props.
Local Open Scope list_scope.
Local Open Scope nat_scope.

Section ConfigNet.
Context {D : Type} (K : num D) (O : order D).
(** Division, exponential function, the number 2, the test for positive numbers, and 1 / ((datum) rw * (datum) rh). *)
Variables (ndiv : D -> D -> D) (nexp : D -> D) (two : D) (positive : D -> bool) (fraction : nat -> nat -> D).
(** alpha / (datum) n, and pow with the exponents beta and beta - 1 (LRN_Model). *)
Variables (scale : D -> nat -> D) (power power1 : D -> D -> D).

(** InputDownSamplingLayer.cpp:82-84; its BackPropagate is never asked for gradients (the connection behind it wants none, ConfigurableFactory.cpp:307-318). *)
Definition downsampling_behaviour (rw rh : nat) (d : dims) (old_out : list D) : behaviour D :=
  map_behaviour K (fun x => downsample_ff K (fraction rw rh) rw rh (tensor_of d x) (tensor_of (pool_dims rw rh d) old_out)) (fun _ _ _ => None).

(** HMaxActivationFunction.cpp:117-137: the two weights are the parameters (lines 106-110).  Only prediction: no loss, BackPropagate is left out. *)
Definition hmax_behaviour (d : dims) (old_out : list D) : behaviour D :=
  mkBehaviour
    (fun ins ps => [written (hmax_ff K ndiv nexp (tensor_of (mkDims 1 2 1 1) (nth 0 ps [])) (tensor_of d (nth 0 ins [])) (tensor_of d old_out))])
    (fun _ _ => []) (fun _ _ => n0 K) (fun _ _ _ _ => ([], [])).

(** The constructor arguments of a ConvolutionLayer (ConvolutionLayer.cpp:30-44). *)
Definition conv_of (kx ky k sx sy px py group : Z) : conv :=
  mkConv (Z.to_nat kx) (Z.to_nat ky) (Z.to_nat k) (Z.to_nat sx) (Z.to_nat sy) (Z.to_nat px) (Z.to_nat py) (Z.to_nat group).

(** The layer [l], created and connected for batches of [b] samples and with the parameters [ps]; inputs and output for one sample have these shapes
    (CreateOutputs and Connect of the layer: ResizeLayer.cpp:37-78, ConvolutionLayer.cpp:100-201, LocalResponseNormalizationLayer.cpp:27-76,
    MaxPoolingLayer.cpp:36-101, InputDownSamplingLayer.cpp:23-80, AdvancedMaxPoolingLayer.cpp:44-97, ActivationFunctions.cpp:16-66,
    HMaxActivationFunction.cpp:67-114, UpscaleLayer.cpp:23-73, ConcatenationLayer.cpp:19-95, SumLayer.cpp:20-102, ErrorLayer.cpp:24-88).
    Normalization is restricted to square images (C57), sums and concatenations have two inputs as the layers demand. *)
Inductive runs (b : nat) (ps : list (list D)) : @layer D -> list dims -> list dims -> behaviour D -> Prop :=
| runs_border bx by_ d old od :
    let o := border_dims (Z.to_nat bx) (Z.to_nat by_) d in
    0 < sample_size d -> length old = size (at_batch b o) ->
    runs b ps (LResize bx by_) [d] [o] (border_behaviour K (Z.to_nat bx) (Z.to_nat by_) (at_batch b d) old od)
| runs_convolution kx ky k sx sy px py group seed dropout llr d o st old :
    let c := conv_of kx ky k sx sy px py group in
    0 < sample_size d -> 0 < sample_size o -> convolves K c d o b st old -> parameters c d ps ->
    runs b ps (LConvolution kx ky k sx sy px py group seed dropout llr) [d] [o] (testing_conv_behaviour K c dropout (at_batch b d) st old)
| runs_normalization (across : bool) n alpha beta d sums old od :
    (0 < n)%Z -> d_width d = d_height d -> 0 < sample_size d -> length sums = size (at_batch b d) -> length old = size (at_batch b d) ->
    runs b ps (LNormalization across n alpha beta) [d] [d]
      (normalization_behaviour K ndiv two (scale alpha) (power beta) (power1 beta) beta (if across then Across else Within) (Z.to_nat n) (at_batch b d) sums old od)
| runs_pooling kx ky d ix iy old od :
    let rw := Z.to_nat kx in let rh := Z.to_nat ky in let o := pool_dims rw rh d in
    0 < rw -> 0 < rh -> d_width d mod rw = 0 -> d_height d mod rh = 0 -> 0 < sample_size d ->
    length ix = size (at_batch b o) -> length iy = size (at_batch b o) -> length old = size (at_batch b o) ->
    runs b ps (LMaxPooling kx ky) [d] [o] (pool_behaviour K O rw rh (at_batch b d) ix iy old od)
| runs_downsampling kx ky d old :
    let rw := Z.to_nat kx in let rh := Z.to_nat ky in let o := pool_dims rw rh d in
    0 < rw -> 0 < rh -> d_width d mod rw = 0 -> d_height d mod rh = 0 -> 0 < sample_size d -> length old = size (at_batch b o) ->
    runs b ps (LDownSampling kx ky) [d] [o] (downsampling_behaviour rw rh (at_batch b d) old)
| runs_strided kx ky sx sy d mask old od :
    let rw := Z.to_nat kx in let rh := Z.to_nat ky in let sw := Z.to_nat sx in let sh := Z.to_nat sy in let o := strided_dims rw rh sw sh d in
    0 < sw -> 0 < sh -> 0 < sample_size d -> 0 < sample_size o -> length mask = size (at_batch b o) -> length old = size (at_batch b o) ->
    runs b ps (LAdvancedMaxPooling kx ky sx sy) [d] [o] (strided_behaviour K O rw rh sw sh (at_batch b d) (at_batch b o) mask old od)
| runs_sigmoid d old od : 0 < sample_size d -> length old = size (at_batch b d) ->
    runs b ps LSigmoid [d] [d] (sigmoid_layer K ndiv nexp (at_batch b d) old od)
| runs_hmax mu w d old : 0 < sample_size d -> length old = size (at_batch b d) -> length (nth 0 ps []) = 2 ->
    runs b ps (LHMax mu w) [d] [d] (hmax_behaviour (at_batch b d) old)
| runs_relu d old od : 0 < sample_size d -> length old = size (at_batch b d) ->
    runs b ps LReLU [d] [d] (rectifier_layer K positive (at_batch b d) old od)
| runs_tanh d old od : 0 < sample_size d -> length old = size (at_batch b d) ->
    runs b ps LTanh [d] [d] (tanh_layer K ndiv nexp two (at_batch b d) old od)
| runs_upscale fx fy d old od :
    let o := upscale_dims (Z.to_nat fx) (Z.to_nat fy) d in
    (0 < fx)%Z -> (0 < fy)%Z -> 0 < sample_size d -> length old = size (at_batch b o) ->
    runs b ps (LUpscale fx fy) [d] [o] (upscale_behaviour K (Z.to_nat fx) (Z.to_nat fy) (at_batch b d) old od)
| runs_concatenation da db old a c :
    0 < sample_size da -> 0 < sample_size db -> d_width da = d_width db -> d_height da = d_height db -> length old = size (at_batch b (concat_dims da db)) ->
    runs b ps LConcatenation [da; db] [concat_dims da db] (concat_behaviour K (at_batch b da) (at_batch b db) old a c)
| runs_sum d old a c : 0 < sample_size d -> length old = size (at_batch b d) ->
    runs b ps LSum [d; d] [d] (sum_behaviour K (at_batch b d) old a c)
| runs_error w d dw old : runs b ps (LError w) [d; d; dw] [] (error_behaviour K ndiv two (at_batch b d) w old).
End ConfigNet.
