(** Networks of the modelled layers, for C75: which tensors each layer takes, makes and
    tunes, and when the layers of a program fit together. *)
From Coq Require Import Reals.
From Verif Require Import Base Float32 Num RealNum Act_Spec ConvLayer_Model Pool_Spec LRN_Model ConvLayer_Spec Graph_Model Graph_Spec Accumulate_Model Backprop_Model Backprop_Spec
  BackpropLayers_Model BackpropLayers_Spec.
Local Open Scope nat_scope.
Local Open Scope list_scope.

(** Layers that map one tensor to another, without parameters; [out], [delta], ... are the
    contents of the tensors they write before they first do so. *)
Inductive mapping : Type :=
| MBorder (bx by_ : nat) (d : dims) (out delta : list R)
| MPrior (ratio : nat -> nat -> R) (d : dims) (out delta : list R)
| MUpscale (rw rh : nat) (d : dims) (out delta : list R)
| MPool (rw rh : nat) (d : dims) (ix iy : list f32) (out delta : list R)
| MStrided (rw rh sw sh : nat) (d : dims) (mask : list f32) (out delta : list R)
| MNormalize (alpha beta : R) (method : lrn_method) (n : nat) (d : dims) (sums out delta : list R).
Definition maps_as (q : mapping) : behaviour R :=
  match q with
  | MBorder bx by_ d out delta => border_behaviour R_num bx by_ d out delta
  | MPrior ratio d out delta => prior_behaviour R_num ratio d out delta
  | MUpscale rw rh d out delta => upscale_behaviour R_num rw rh d out delta
  | MPool rw rh d ix iy out delta => pool_behaviour R_num R_order rw rh d ix iy out delta
  | MStrided rw rh sw sh d mask out delta => strided_behaviour R_num R_order rw rh sw sh d (strided_dims rw rh sw sh d) mask out delta
  | MNormalize alpha beta method n d sums out delta =>
    normalization_behaviour R_num Rdiv 2%R (fun n => alpha / INR n)%R (fun z => Rpower z beta) (fun z => Rpower z (beta - 1)) beta method n d sums out delta
  end.
Definition maps_from (q : mapping) : dims :=
  match q with
  | MBorder _ _ d _ _ | MPrior _ d _ _ | MUpscale _ _ d _ _ | MPool _ _ d _ _ _ _ | MStrided _ _ _ _ d _ _ _ | MNormalize _ _ _ _ d _ _ _ => d
  end.
Definition maps_to (q : mapping) : dims :=
  match q with
  | MBorder bx by_ d _ _ => border_dims bx by_ d
  | MPrior _ d _ _ => prior_dims d
  | MUpscale rw rh d _ _ => upscale_dims rw rh d
  | MPool rw rh d _ _ _ _ => pool_dims rw rh d
  | MStrided rw rh sw sh d _ _ _ => strided_dims rw rh sw sh d
  | MNormalize _ _ _ _ d _ _ _ => d
  end.
(** Pooling keeps positions as floats, which are exact up to 2^24; its regions cover the
    image; normalization needs square images (C39, C40, C42). *)
Definition maps_well (q : mapping) : Prop :=
  match q with
  | MBorder _ _ _ out delta | MPrior _ _ out delta => 0 < size (maps_from q) /\ shaped (maps_to q) out /\ shaped (maps_from q) delta
  | MUpscale rw rh d out delta => 0 < rw /\ 0 < rh /\ 0 < size d /\ shaped (maps_to q) out /\ shaped d delta
  | MPool rw rh d ix iy out delta =>
    0 < rw /\ 0 < rh /\ d_width d mod rw = 0 /\ d_height d mod rh = 0 /\ (Z.of_nat (d_width d) <= 2 ^ 24)%Z /\ (Z.of_nat (d_height d) <= 2 ^ 24)%Z /\
    0 < size d /\ length ix = size (maps_to q) /\ length iy = size (maps_to q) /\ shaped (maps_to q) out /\ shaped d delta
  | MStrided rw rh sw sh d mask out delta =>
    0 < sw /\ 0 < sh /\ (Z.of_nat (d_width d * d_height d) <= 2 ^ 24)%Z /\ 0 < size d /\ 0 < size (maps_to q) /\
    length mask = size (maps_to q) /\ shaped (maps_to q) out /\ shaped d delta
  | MNormalize alpha _ _ n d sums out delta =>
    (0 <= alpha)%R /\ 0 < n /\ d_width d = d_height d /\ 0 < size d /\ shaped d sums /\ shaped d out /\ shaped d delta
  end.
(** Every region pooled has one largest element. *)
Definition maps_smoothly (q : mapping) (x : list R) : Prop :=
  match q with
  | MPool rw rh d _ _ _ _ =>
    forall ox oy m s, in_range (maps_to q) ox oy m s -> clear_maximum (columns (ox * rw) (oy * rh) rw rh) (fun p => fn d x (fst p) (snd p) m s)
  | MStrided rw rh sw sh d _ _ _ =>
    forall ox oy m s, in_range (maps_to q) ox oy m s -> clear_maximum (rows (ox * sw) (oy * sh) rw rh) (fun p => fn d x (fst p) (snd p) m s)
  | _ => True
  end.

(** A layer with the shapes of its tensors; [out], [delta], ... are the contents of the
    tensors it writes before it first does so. *)
Inductive part : Type :=
| PInput (ds : list dims) (loaded : list (list R))
| PSigmoid (d : dims) (out delta : list R)
| PTanh (d : dims) (out delta : list R)
| PRectifier (d : dims) (out delta : list R)
| PSum (d : dims) (out delta1 delta2 : list R)
| PConcatenation (d1 d2 : dims) (out delta1 delta2 : list R)
| PLoss (d : dims) (weight : R) (delta : list R)
| PConvolution (c : conv) (d : dims) (st : @conv_state R) (out delta : list R)
| PMapping (q : mapping)
| PStatistics (ds : list dims)
| PAccumulation (d : dims) (count : nat) (delta : list R).

(** What it does (BackpropLayers_Model.v, Backprop_Model.v). *)
Definition acts (p : part) : behaviour R :=
  match p with
  | PInput _ loaded => input_behaviour R_num loaded
  | PSigmoid d out delta => sigmoid_layer R_num Rdiv exp d out delta
  | PTanh d out delta => tanh_layer R_num Rdiv exp 2%R d out delta
  | PRectifier d out delta => rectifier_layer R_num R_positive d out delta
  | PSum d out delta1 delta2 => sum_behaviour R_num d out delta1 delta2
  | PConcatenation d1 d2 out delta1 delta2 => concat_behaviour R_num d1 d2 out delta1 delta2
  | PLoss d weight delta => error_behaviour R_num Rdiv 2%R d weight delta
  | PConvolution c d st out delta => conv_behaviour R_num c d st out delta
  | PMapping q => maps_as q
  | PStatistics _ => observer_behaviour R_num
  | PAccumulation d count delta => accumulation_behaviour R_num count (d_samples d) (d_maps d * d_height d * d_width d) delta
  end.

(** Shapes of its inputs, outputs and parameters. *)
Definition takes (p : part) : list dims :=
  match p with
  | PInput _ _ => []
  | PSigmoid d _ _ | PTanh d _ _ | PRectifier d _ _ | PConvolution _ d _ _ _ | PAccumulation d _ _ => [d]
  | PSum d _ _ _ => [d; d]
  | PConcatenation d1 d2 _ _ _ => [d1; d2]
  | PLoss d _ _ => [d; d; weight_dims d]
  | PMapping q => [maps_from q]
  | PStatistics ds => ds
  end.
Definition makes (p : part) : list dims :=
  match p with
  | PInput ds _ => ds
  | PSigmoid d _ _ | PTanh d _ _ | PRectifier d _ _ | PSum d _ _ _ => [d]
  | PConcatenation d1 d2 _ _ _ => [concat_dims d1 d2]
  | PConvolution c d _ _ _ => [out_dims c d]
  | PMapping q => [maps_to q]
  | PLoss _ _ _ | PStatistics _ => []
  | PAccumulation d count _ => repeat d count
  end.
Definition tunes (p : part) : list dims :=
  match p with PConvolution c d _ _ _ => [weights_dims c d; bias_dims c] | _ => [] end.

(** The tensors it owns have the right sizes; a convolution has been connected (C35). *)
Definition fits (p : part) : Prop :=
  match p with
  | PInput ds loaded => Forall2 shaped ds loaded
  | PSigmoid d out delta | PTanh d out delta | PRectifier d out delta => 0 < size d /\ shaped d out /\ shaped d delta
  | PSum d out delta1 delta2 => 0 < size d /\ shaped d out /\ shaped d delta1 /\ shaped d delta2
  | PConcatenation d1 d2 out delta1 delta2 =>
    d_samples d2 = d_samples d1 /\ d_width d2 = d_width d1 /\ d_height d2 = d_height d1 /\ 0 < size d1 /\ 0 < size d2 /\
    shaped (concat_dims d1 d2) out /\ shaped d1 delta1 /\ shaped d2 delta2
  | PLoss d _ delta => 0 < size d /\ shaped d delta
  | PConvolution c d st out delta =>
    (exists wt b, conv_ready R_num c st (d_width d) (d_height d) (d_maps d) (d_samples d) wt b) /\
    0 < d_maps d / cv_group c /\ 0 < size d /\ 0 < size (out_dims c d) /\ 0 < size (weights_dims c d) /\
    shaped (out_dims c d) out /\ shaped d delta
  | PMapping q => maps_well q
  | PStatistics _ => True
  | PAccumulation d _ delta => shaped d delta
  end.

(** How its inputs may be used: a statistics layer is not asked for gradients; labels and
    weights of a loss come from the data set; every other input that depends on
    parameters is asked for its gradient; and a convolution that is asked for the
    gradient of its input has no horizontal padding and no more rows than columns (C64). *)
Definition used_well (p : part) (uses : list use) : Prop :=
  match p with
  | PStatistics _ => ~ In Asked uses
  | PLoss _ _ _ => ~ In Observed uses /\ nth 1 uses Asked = Constant /\ nth 2 uses Asked = Constant
  | PConvolution c d _ _ _ => ~ In Observed uses /\ (In Asked uses -> cv_pw c = 0 /\ d_height d <= d_width d)
  | PAccumulation _ _ _ => uses = [Asked]
  | _ => ~ In Observed uses
  end.

(** No input of a rectifier is 0, where it has no derivative, and no region pooled has two
    largest elements. *)
Definition smooth (p : part) (inputs : list (list R)) : Prop :=
  match p with PRectifier _ _ _ => ~ In 0%R (nth 0 inputs []) | PMapping q => maps_smoothly q (nth 0 inputs []) | _ => True end.

Definition is_input (p : part) : bool := match p with PInput _ _ => true | _ => false end.
Definition is_loss (p : part) : bool := match p with PLoss _ _ _ => true | _ => false end.
Definition is_sum_of_gradients (p : part) : bool := match p with PAccumulation _ _ _ => true | _ => false end.

(** The nodes [history] of a program hold the layers [parts]: every connection delivers a
    tensor of the shape the layer takes, the layers fit and are used well, and every
    output of a layer that is not an input of the network is asked for its gradient. *)
Record composed (h0 : list node) (history : list nat) (parts : nat -> part) : Prop := mkComposed {
  co_reads : forall n nd, In n history -> nth_error h0 n = Some nd ->
    Forall2 (fun c d => exists q, c_node c = Some q /\ nth_error (makes (parts q)) (c_buffer c) = Some d) (n_inputs nd) (takes (parts n));
  co_makes : forall n nd, In n history -> nth_error h0 n = Some nd -> n_buffers nd = length (makes (parts n));
  co_kind : forall n nd, In n history -> nth_error h0 n = Some nd ->
    n_is_input nd = is_input (parts n) /\ layer_has k_loss nd = is_loss (parts n) /\
    layer_has k_accumulation nd = false /\ is_sum_of_gradients (parts n) = false;
  co_fits : forall n, In n history -> fits (parts n);
  co_used : forall n nd, In n history -> nth_error h0 n = Some nd ->
    used_well (parts n) (map (fun c => use_of h0 (settled h0 c)) (n_inputs nd));
  co_wanted : forall n, In n history -> is_input (parts n) = false -> makes (parts n) <> [] ->
    exists k, In k history /\ wants_gradient h0 k n }.

(** The layers of the network Initialize makes of them: an inserted node adds up the
    gradients of the output it reads. *)
Definition stack (history : list nat) (parts : nat -> part) (olds : nat -> list R) (h : list node) (n : nat) : part :=
  if existsb (Nat.eqb n) history then parts n
  else match inputs_of h n with
       | [mkConn (Some q) b _] => PAccumulation (nth b (makes (parts q)) (mkDims 0 0 0 0)) (buffers_of h n) (olds n)
       | _ => PStatistics []
       end.
