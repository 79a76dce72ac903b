(** Model of ConvolutionLayer (src/net/ConvolutionLayer.cpp, include/cn24/net/ConvolutionLayer.h).

    Not modelled: OpenCL, logging, the random initialization of the weights.
    Simplification: [int]/[unsigned int] arithmetic does not overflow, except for the
    unsigned subtraction in [Connect], which is taken modulo 2^64. *)
From Verif Require Import Base Tensor_Model Num Math_Model.

(** ConvolutionLayer.h:  configuration of a layer. *)
Record conv := mkConv {
  cv_kw : nat; cv_kh : nat; cv_omaps : nat; cv_sw : nat; cv_sh : nat; cv_pw : nat; cv_ph : nat; cv_group : nat
}.

(** ConvolutionLayer.cpp:30-70: checks of the constructor with explicit arguments.  The
    constructor from a string (72-98) performs no check. *)
Definition conv_ctor (c : conv) : res conv :=
  if (cv_kw c =? 0) || (cv_kh c =? 0) then Fatal
  else if (cv_sw c =? 0) || (cv_sh c =? 0) then Fatal
  else if cv_group c =? 0 then UB
  else if negb (cv_omaps c mod cv_group c =? 0) then Fatal
  else Ok c.

(** ConvolutionLayer.cpp:100-144 for one non-null input of the given size: the size of the
    output, or None if the input is refused with an error message. *)
Definition conv_create_outputs (c : conv) (w h m : nat) : res (option (Z * Z)) :=
  if (cv_sw c =? 0) || (cv_sh c =? 0) then UB
  else
    let ow := out_dim (cv_pw c) w (cv_kw c) (cv_sw c) in
    let oh := out_dim (cv_ph c) h (cv_kh c) (cv_sh c) in
    if ((ow <=? 0) || (oh <=? 0))%Z then Ok None
    else if cv_group c =? 0 then UB
    else if negb (m mod cv_group c =? 0) then Fatal
    else Ok (Some (ow, oh)).

(** ConvolutionLayer.cpp:150: std::size_t arithmetic. *)
Definition connect_dim (pad size kernel stride : nat) : Z :=
  (((2 * Z.of_nat pad + Z.of_nat size - Z.of_nat kernel) mod 2 ^ 64) / Z.of_nat stride + 1)%Z.

(** ConvolutionLayer.cpp:148-155. *)
Definition conv_connect (c : conv) (w h : nat) (ow oh : Z) : bool :=
  ((ow =? connect_dim (cv_pw c) w (cv_kw c) (cv_sw c)) && (oh =? connect_dim (cv_ph c) h (cv_kh c) (cv_sh c)))%Z.

(** Insertion of the layer: CreateOutputs, then Connect with the outputs it made
    (NetGraph.cpp:262-287; both refusals end in FATAL there). *)
Definition conv_insert (c : conv) (w h m : nat) : res (option (Z * Z)) :=
  r <- conv_create_outputs c w h m ;;
  match r with
  | None => Ok None
  | Some (ow, oh) => if conv_connect c w h ow oh then Ok (Some (ow, oh)) else Ok None
  end.

Section Layer.
Context {D : Type}.
Variable K : num D.
Variable junk : nat -> D.

(** The buffers and parameters of a connected layer, ConvolutionLayer.cpp:157-195. *)
Record conv_state := mkConvState {
  cs_geo : geometry;
  cs_ow : nat;
  cs_oh : nat;
  cs_im2col : tensor D;
  cs_sms : tensor D;
  cs_sms2 : tensor D;
  cs_deltax : tensor D;
  cs_ones : tensor D;
  cs_weights : tensor D;
  cs_weights_delta : tensor D;
  cs_bias : tensor D;
  cs_bias_delta : tensor D
}.

(** Geometry passed to IM2COL and COL2IM (ConvolutionLayer.cpp:211, 323). *)
Definition conv_geo (c : conv) (w h m s : nat) : geometry :=
  mkGeo w h m s (cv_kw c) (cv_kh c) (cv_sw c) (cv_sh c) (cv_pw c) (cv_ph c).

(** ConvolutionLayer.cpp:157-200 for an input of the given shape; [new CombinedTensor]
    creates data and delta of one shape (CombinedTensor.h). *)
Definition conv_state_of (c : conv) (w h m s ow oh : nat) : res conv_state :=
  let col n := resize junk empty_tensor n ow oh s in
  let nk := cv_kw c * cv_kh c * m in
  let ones := resize junk empty_tensor 1 (ow * oh * s) 1 1 in
  ones' <- run_stores ones (for_ (elements ones) (fun i => [(i, Ok (n1 K))])) ;;
  bias <- clear (new_tensor junk 1 (cv_omaps c) 1 1) (n0 K) None ;;
  weights <- clear (new_tensor junk (cv_omaps c) (cv_kw c) (cv_kh c) (m / cv_group c)) (n0 K) None ;;
  Ok (mkConvState (conv_geo c w h m s) ow oh (col nk) (col (cv_omaps c)) (col (cv_omaps c)) (col nk) ones'
        weights (new_tensor junk (cv_omaps c) (cv_kw c) (cv_kh c) (m / cv_group c))
        bias (new_tensor junk 1 (cv_omaps c) 1 1)).

(** ConvolutionLayer.cpp:215-223: the convolution of one group. *)
Definition conv_group_ff (c : conv) (st : conv_state) (S : nat) (w : D) (col smsb : tensor D) (g : nat) : res (tensor D) :=
  let im := g_maps (cs_geo st) in
  let kk := cv_kw c * cv_kh c * im in
  let N := cs_ow st * cs_oh st * S in
  gemm K true false false (cv_omaps c / cv_group c) N (kk / cv_group c)
       w (cs_weights st) ((g * cv_omaps c) / cv_group c) (kk / cv_group c)
       col ((kk * g) / cv_group c) N
       (n0 K) smsb ((g * cv_omaps c) / cv_group c) N.

(** ConvolutionLayer.cpp:203-266.  [dropout] is the dropout fraction, [testing] is
    net_->IsTesting().  Returns the IM2COL and SMS buffers and the output. *)
Definition conv_ff (c : conv) (testing : bool) (dropout : D) (st : conv_state) (input output : tensor D)
  : res (conv_state * tensor D) :=
  let p := if testing then n0 K else dropout in
  let w := if testing then nsub K (n1 K) dropout else n1 K in
  let S := samples input in
  let N := cs_ow st * cs_oh st * S in
  col <- im2col K (cs_geo st) input (cs_im2col st) ;;
  sms1 <- foldm (fun smsb g => conv_group_ff c st S w col smsb g) (seq 0 (cv_group c)) (cs_sms st) ;;
  sms2 <- gemm K true false false (cv_omaps c) N 1 w (cs_bias st) 0 1 (cs_ones st) 0 N (n1 K) sms1 0 N ;;
  out <- sms sms2 output ;;
  if nzerob K p then
    Ok (mkConvState (cs_geo st) (cs_ow st) (cs_oh st) col sms2 (cs_sms2 st) (cs_deltax st) (cs_ones st)
          (cs_weights st) (cs_weights_delta st) (cs_bias st) (cs_bias_delta st), out)
  else Fatal.

(** ConvolutionLayer.cpp:291-313: input and weight gradients of one group. *)
Definition conv_group_bp (c : conv) (st : conv_state) (S : nat) (backprop : bool) (sms2 : tensor D)
  (acc : tensor D * tensor D) (g : nat) : res (tensor D * tensor D) :=
  let '(dx, dw) := acc in
  let im := g_maps (cs_geo st) in
  let kk := cv_kw c * cv_kh c * im in
  let N := cs_ow st * cs_oh st * S in
  dx' <- (if backprop then
            gemm K true true false (kk / cv_group c) N (cv_omaps c / cv_group c)
                 (n1 K) (cs_weights st) ((g * cv_omaps c) / cv_group c) (kk / cv_group c)
                 sms2 ((g * cv_omaps c) / cv_group c) N
                 (n0 K) dx ((kk * g) / cv_group c) N
          else Ok dx) ;;
  dw' <- gemm K true false true (cv_omaps c / cv_group c) (kk / cv_group c) N
              (n1 K) sms2 ((g * cv_omaps c) / cv_group c) N
              (cs_im2col st) ((kk * g) / cv_group c) N
              (n0 K) dw ((g * cv_omaps c) / cv_group c) (kk / cv_group c) ;;
  Ok (dx', dw').

(** ConvolutionLayer.cpp:268-325. *)
Definition conv_bp (c : conv) (backprop : bool) (st : conv_state) (S : nat) (output_delta input_delta : tensor D)
  : res (conv_state * tensor D) :=
  let N := cs_ow st * cs_oh st * S in
  sms2 <- sms output_delta (cs_sms2 st) ;;
  acc <- foldm (fun acc g => conv_group_bp c st S backprop sms2 acc g) (seq 0 (cv_group c))
               (cs_deltax st, cs_weights_delta st) ;;
  let '(dx, dw) := acc in
  db <- gemv K true false (cv_omaps c) N (n1 K) sms2 0 N (cs_ones st) 0 1 (n0 K) (cs_bias_delta st) 0 1 ;;
  di <- (if backprop then col2im K (cs_geo st) input_delta dx else Ok input_delta) ;;
  Ok (mkConvState (cs_geo st) (cs_ow st) (cs_oh st) (cs_im2col st) (cs_sms st) sms2 dx (cs_ones st)
        (cs_weights st) dw (cs_bias st) db, di).

End Layer.
