(** The layers of Act_Model.v, Layers_Model.v, ConvLayer_Model.v, Pool_Model.v and LRN_Model.v as parts of a network:
    what each of them does to the memory Backprop_Model.v describes.

    A layer is given the shapes of its tensors (fixed by CreateOutputs and Connect, C35, C41
    and C42) and the previous contents of the tensors it writes. *)
From Verif Require Import Base Num Tensor_Model Math_Model Act_Model Layers_Model ConvLayer_Model Float32 Pool_Model LRN_Model Backprop_Model.
Local Open Scope list_scope.

(** Samples, width, height, maps of a tensor. *)
Record dims := mkDims { d_samples : nat; d_width : nat; d_height : nat; d_maps : nat }.
Definition size (d : dims) : nat := d_samples d * d_maps d * d_height d * d_width d.

Section Wrap.
Context {D : Type}.
(** The tensor of the given shape with these elements (Tensor.h:290-303). *)
Definition tensor_of (d : dims) (l : list D) : tensor D :=
  mkTensor (d_samples d) (d_width d) (d_height d) (d_maps d) (size d) (Some l).
Definition elements_of (t : tensor D) : list D := match data t with Some l => l | None => [] end.
(** What is in a tensor after a function has written it; a failure leaves nothing to read. *)
Definition written (r : res (tensor D)) : list D := match r with Ok t => elements_of t | _ => [] end.
Definition written_delta (r : res (tensor D)) : option (list D) := match r with Ok t => Some (elements_of t) | _ => None end.
End Wrap.

Section Behaviours.
Context {D : Type}.
Variable K : num D.

(** An input of the network (InputLayer.cpp:39-76, InputLayer.h:55-56: the outputs shadow the
    tensors of the program; DatasetInputLayer.cpp:142-215 with the samples of one batch
    fixed): its outputs hold what was loaded, BackPropagate does nothing. *)
Definition input_behaviour (loaded : list (list D)) : behaviour D :=
  mkBehaviour (fun _ _ => loaded) (fun _ _ => []) (fun _ _ => n0 K) (fun _ _ _ _ => ([], [])).

(** NonLinearityLayer and its subclasses (ActivationFunctions.cpp:69-243); [ff] and [bp] are
    the loops of Act_Model.v. *)
Definition activation_behaviour (d : dims) (ff : tensor D -> tensor D -> res (tensor D))
    (bp : tensor D -> tensor D -> tensor D -> tensor D -> res (tensor D)) (old_out old_delta : list D) : behaviour D :=
  let out ins := ff (tensor_of d (nth 0 ins [])) (tensor_of d old_out) in
  mkBehaviour
    (fun ins _ => [written (out ins)])
    (fun _ _ => [])
    (fun _ _ => n0 K)
    (fun _ ins _ deltas =>
       ([written_delta (bp (tensor_of d (nth 0 ins [])) (tensor_of d (written (out ins))) (tensor_of d (nth 0 deltas [])) (tensor_of d old_delta))], [])).

(** A statistics layer (ConfusionMatrixLayer.cpp:206-208, BinaryStatLayer.cpp:258-260): it has
    no outputs, and BackPropagate does nothing.  What it counts is not part of a pass. *)
Definition observer_behaviour : behaviour D :=
  mkBehaviour (fun _ _ => []) (fun _ _ => []) (fun _ _ => n0 K) (fun _ _ _ _ => ([], [])).

(** ActivationFunctions.cpp:69-128: the logistic function, whose derivative is taken from the
    output; 161-216: the hyperbolic tangent, likewise; 220-243: the rectifier, from the input. *)
Variables (ndiv : D -> D -> D) (nexp : D -> D) (two : D) (positive : D -> bool).
Definition sigmoid_layer (d : dims) := activation_behaviour d (act_ff (sigmoid K ndiv nexp)) (fun _ output od id => act_bp (sigmoid_back K) output od id).
Definition tanh_layer (d : dims) := activation_behaviour d (act_ff (tangent K ndiv nexp two)) (fun _ output od id => act_bp (tangent_back K) output od id).
Definition rectifier_layer (d : dims) := activation_behaviour d (act_ff (rectify K positive)) (fun input _ od id => act_bp (rectify_back K positive) input od id).

(** SumLayer.cpp:104-113. *)
Definition sum_behaviour (d : dims) (old_out old_a old_b : list D) : behaviour D :=
  mkBehaviour
    (fun ins _ => [written (sum_ff K (tensor_of d (nth 0 ins [])) (tensor_of d (nth 1 ins [])) (tensor_of d old_out))])
    (fun _ _ => [])
    (fun _ _ => n0 K)
    (fun _ _ _ deltas =>
       let r := sum_bp K (tensor_of d (nth 0 deltas [])) (tensor_of d old_a) (tensor_of d old_b) in
       ([written_delta (p <- r ;; Ok (fst p)); written_delta (p <- r ;; Ok (snd p))], [])).

(** ConcatenationLayer.cpp:97-117; [da] and [db] differ in the number of maps. *)
Definition concat_dims (da db : dims) : dims := mkDims (d_samples da) (d_width da) (d_height da) (d_maps da + d_maps db).
Definition concat_behaviour (da db : dims) (old_out old_a old_b : list D) : behaviour D :=
  mkBehaviour
    (fun ins _ => [written (concat_ff K (tensor_of da (nth 0 ins [])) (tensor_of db (nth 1 ins [])) (tensor_of (concat_dims da db) old_out))])
    (fun _ _ => [])
    (fun _ _ => n0 K)
    (fun _ _ _ deltas =>
       let r := concat_bp K (tensor_of (concat_dims da db) (nth 0 deltas [])) (tensor_of da old_a) (tensor_of db old_b) in
       ([written_delta (p <- r ;; Ok (fst p)); written_delta (p <- r ;; Ok (snd p))], [])).

(** ErrorLayer.cpp:90-168: inputs are prediction, label and weight; the gradient of the
    prediction is stored by FeedForward, BackPropagate (lines 135-138) does nothing. *)
Definition weight_dims (d : dims) : dims := mkDims (d_samples d) (d_width d) (d_height d) 1.
Definition error_behaviour (d : dims) (loss_weight : D) (old_delta : list D) : behaviour D :=
  let on ins A (f : tensor D -> tensor D -> tensor D -> A) :=
    f (tensor_of d (nth 0 ins [])) (tensor_of d (nth 1 ins [])) (tensor_of (weight_dims d) (nth 2 ins [])) in
  mkBehaviour
    (fun _ _ => [])
    (fun ins _ => [on ins _ (fun a b w => written_delta (error_ff K loss_weight a b w (tensor_of d old_delta)))])
    (fun ins _ => on ins _ (fun a b w => match error_loss K ndiv two loss_weight a b w with Ok v => v | _ => n0 K end))
    (fun _ _ _ _ => ([], [])).

(** ConvolutionLayer.cpp:203-325 without dropout; the parameters are weights and bias
    (lines 199-200); [st] is the connected layer with its buffers, the input has the shape
    [d].  BackPropagate finds the buffers as FeedForward left them. *)
Definition with_params (c : conv) (d : dims) (st : @conv_state D) (ps : list (list D)) : @conv_state D :=
  mkConvState (cs_geo st) (cs_ow st) (cs_oh st) (cs_im2col st) (cs_sms st) (cs_sms2 st) (cs_deltax st) (cs_ones st)
    (tensor_of (mkDims (cv_omaps c) (cv_kw c) (cv_kh c) (d_maps d / cv_group c)) (nth 0 ps [])) (cs_weights_delta st)
    (tensor_of (mkDims 1 (cv_omaps c) 1 1) (nth 1 ps [])) (cs_bias_delta st).
Definition conv_behaviour (c : conv) (d : dims) (st : @conv_state D) (old_out old_delta : list D) : behaviour D :=
  let o := mkDims (d_samples d) (cs_ow st) (cs_oh st) (cv_omaps c) in
  let ff ins ps := conv_ff K c false (n0 K) (with_params c d st ps) (tensor_of d (nth 0 ins [])) (tensor_of o old_out) in
  mkBehaviour
    (fun ins ps => [written (r <- ff ins ps ;; Ok (snd r))])
    (fun _ _ => [])
    (fun _ _ => n0 K)
    (fun enabled ins ps deltas =>
       let r := r1 <- ff ins ps ;; conv_bp K c enabled (fst r1) (d_samples d) (tensor_of o (nth 0 deltas [])) (tensor_of d old_delta) in
       ([if enabled then written_delta (p <- r ;; Ok (snd p)) else None],
        [written (p <- r ;; Ok (cs_weights_delta (fst p))); written (p <- r ;; Ok (cs_bias_delta (fst p)))])).

(** Layers with one input, one output and no parameters. *)
Definition map_behaviour (ff : list D -> res (tensor D)) (bp : bool -> list D -> list D -> option (list D)) : behaviour D :=
  mkBehaviour
    (fun ins _ => [written (ff (nth 0 ins []))])
    (fun _ _ => [])
    (fun _ _ => n0 K)
    (fun enabled ins _ deltas => ([bp enabled (nth 0 ins []) (nth 0 deltas [])], [])).

(** ResizeLayer.cpp:80-130: without back-propagation the gradient is not touched. *)
Definition border_dims (bx by_ : nat) (d : dims) : dims := mkDims (d_samples d) (d_width d + bx) (d_height d + by_) (d_maps d).
Definition border_behaviour (bx by_ : nat) (d : dims) (old_out old_delta : list D) : behaviour D :=
  let o := border_dims bx by_ d in
  map_behaviour (fun x => resize_ff K bx by_ (tensor_of d x) (tensor_of o old_out))
    (fun enabled _ delta => if enabled then written_delta (resize_bp K true bx by_ (tensor_of o delta) (tensor_of d old_delta)) else None).

(** SpatialPriorLayer.cpp:59-93. *)
Definition prior_dims (d : dims) : dims := mkDims (d_samples d) (d_width d) (d_height d) (d_maps d + 2).
Definition prior_behaviour (ratio : nat -> nat -> D) (d : dims) (old_out old_delta : list D) : behaviour D :=
  let o := prior_dims d in
  map_behaviour (fun x => prior_ff K ratio (tensor_of d x) (tensor_of o old_out))
    (fun _ _ delta => written_delta (prior_bp K (tensor_of o delta) (tensor_of d old_delta))).

(** UpscaleLayer.cpp:75-81. *)
Definition upscale_dims (rw rh : nat) (d : dims) : dims := mkDims (d_samples d) (d_width d * rw) (d_height d * rh) (d_maps d).
Definition upscale_behaviour (rw rh : nat) (d : dims) (old_out old_delta : list D) : behaviour D :=
  let o := upscale_dims rw rh d in
  map_behaviour (fun x => upscale_ff K rw rh (tensor_of d x) (tensor_of o old_out))
    (fun _ _ delta => written_delta (upscale_bp K rw rh (tensor_of o delta) (tensor_of d old_delta))).

(** MaxPoolingLayer.cpp:103-235; BackPropagate reads the positions FeedForward has stored;
    [old_ix] and [old_iy] are what the tensors of positions held before. *)
Variable O : order D.
Definition pool_dims (rw rh : nat) (d : dims) : dims := mkDims (d_samples d) (d_width d / rw) (d_height d / rh) (d_maps d).
Definition pool_behaviour (rw rh : nat) (d : dims) (old_ix old_iy : list f32) (old_out old_delta : list D) : behaviour D :=
  let o := pool_dims rw rh d in
  let ff x := pool_ff O rw rh (tensor_of d x) (tensor_of o old_ix) (tensor_of o old_iy) (tensor_of o old_out) in
  map_behaviour (fun x => r <- ff x ;; Ok (snd r))
    (fun _ x delta => written_delta (r <- ff x ;; pool_bp K (fst (fst r)) (snd (fst r)) (tensor_of o delta) (tensor_of d old_delta))).

(** AdvancedMaxPoolingLayer.cpp:99-242, likewise; one output per window position (C40). *)
Definition strided_behaviour (rw rh sw sh : nat) (d o : dims) (old_mask : list f32) (old_out old_delta : list D) : behaviour D :=
  let ff x := apool_ff O rw rh sw sh (tensor_of d x) (tensor_of o old_mask) (tensor_of o old_out) in
  map_behaviour (fun x => r <- ff x ;; Ok (snd r))
    (fun _ x delta => written_delta (r <- ff x ;; apool_bp K rw rh sw sh (fst r) (tensor_of o delta) (tensor_of d old_delta))).

(** LocalResponseNormalizationLayer.cpp:78-191; BackPropagate reads the sums of squares
    FeedForward has stored. *)
Variables (scale : nat -> D) (power power1 : D -> D) (beta : D).
Definition normalization_behaviour (method : lrn_method) (n : nat) (d : dims) (old_sums old_out old_delta : list D) : behaviour D :=
  let ff x := lrn_ff K scale power ndiv method n (tensor_of d x) (tensor_of d old_sums) (tensor_of d old_out) in
  map_behaviour (fun x => r <- ff x ;; Ok (snd r))
    (fun _ x delta => written_delta (r <- ff x ;;
       lrn_bp K scale power power1 ndiv two beta method n (tensor_of d x) (fst r) (tensor_of d delta) (tensor_of d old_delta))).
End Behaviours.
