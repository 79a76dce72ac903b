(** Model of src/net/ActivationFunctions.cpp, src/net/NonLinearityLayer.cpp,
    src/net/HMaxActivationFunction.cpp and src/net/ErrorLayer.cpp (without OpenCL, with
    ERROR_LAYER_IGNORE_WEIGHTS not defined).

    Simplifications: the arithmetic is a parameter ([num] and the functions named in the
    section); conversions between float, double and long double are not modelled; the
    statistics HMax reports are left out (they do not influence the tensors). *)
From Verif Require Import Base Tensor_Model Num Math_Model.

Section ActModel.
Context {D : Type}.
Variable K : num D.
Variables (ndiv : D -> D -> D) (nexp nlog : D -> D) (positive : D -> bool) (two : D).

Notation "a +! b" := (nadd K a b) (at level 50, left associativity).
Notation "a *! b" := (nmul K a b) (at level 40, left associativity).
Notation "a -! b" := (nsub K a b) (at level 50, left associativity).

Definition elt (t : tensor D) (e : nat) : res D := l <- buffer t ;; load l e.

(** NonLinearityLayer.cpp:17-42. *)
Definition act_create (input : tensor D) : nat * nat * nat * nat := (samples input, width input, height input, maps input).
(** NonLinearityLayer.cpp:44-53. *)
Definition act_connect (input output : tensor D) : bool :=
  (samples input =? samples output) && (width input =? width output) && (height input =? height output) && (maps input =? maps output).

(** The loop shared by the FeedForward functions. *)
Definition act_ff (fwd : D -> D) (input output : tensor D) : res (tensor D) :=
  run_stores output (for_ (elements input) (fun e => [(e, v <- elt input e ;; Ok (fwd v))])).
(** The loop shared by the BackPropagate functions; [from] is the tensor read besides the delta. *)
Definition act_bp (bwd : D -> D -> D) (from output_delta input_delta : tensor D) : res (tensor D) :=
  run_stores input_delta (for_ (elements from) (fun e => [(e, od <- elt output_delta e ;; v <- elt from e ;; Ok (bwd od v))])).

(** ActivationFunctions.cpp:69-76. *)
Definition sigmoid (x : D) : D := ndiv (n1 K) (n1 K +! nexp (nopp K x)).
(** ActivationFunctions.cpp:114-128: reads the output. *)
Definition sigmoid_back (output_delta output_data : D) : D := output_delta *! output_data *! (n1 K -! output_data).
(** ActivationFunctions.cpp:161-168. *)
Definition tangent (x : D) : D := n1 K -! ndiv two (nexp (two *! x) +! n1 K).
(** ActivationFunctions.cpp:205-216: reads the output. *)
Definition tangent_back (output_delta output_data : D) : D := output_delta *! (n1 K -! output_data *! output_data).
(** ActivationFunctions.cpp:220-229. *)
Definition rectify (x : D) : D := if positive x then x else n0 K.
(** ActivationFunctions.cpp:231-243: reads the input. *)
Definition rectify_back (output_delta input_data : D) : D := if positive input_data then output_delta else n0 K.

(** ActivationFunctions.cpp:247-251. *)
Definition softmax_sum (input : tensor D) (sample : nat) : res D :=
  foldm (fun acc x => v <- get input x 0 0 sample ;; Ok (acc +! nexp v)) (seq 0 (width input)) (n0 K).
(** ActivationFunctions.cpp:247-256: one iteration. *)
Definition softmax_ff_sample (input output : tensor D) (sample : nat) : list (nat * res D) :=
  for_ (width input) (fun x => [(offset output x 0 0 sample,
    sum <- softmax_sum input sample ;; v <- get input x 0 0 sample ;; Ok (ndiv (nexp v) sum))]).
(** ActivationFunctions.cpp:245-257. *)
Definition softmax_ff (input output : tensor D) : res (tensor D) :=
  run_stores output (for_ (samples input) (softmax_ff_sample input output)).
(** ActivationFunctions.cpp:259-265. *)
Definition softmax_bp (output_delta input_delta : tensor D) : res (tensor D) :=
  run_stores input_delta (for_ (elements input_delta) (fun e => [(e, elt output_delta e)])).

(** ** HMax *)

(** HMaxActivationFunction.cpp:117-137: the new output; a and b are the two weights. *)
Definition hmax (a b x : D) : D := ndiv (n1 K) (n1 K +! nexp (nopp K (a *! x +! b))).
Definition hmax_ff (weights input output : tensor D) : res (tensor D) :=
  a <- get weights 0 0 0 0 ;; b <- get weights 1 0 0 0 ;; act_ff (hmax a b) input output.

(** HMaxActivationFunction.cpp:159-172, 179-182: one element's input delta; [lambda] is
    [loss_weight_]. *)
Definition hmax_back (a lambda mu x out od : D) : D :=
  let mix := (n1 K -! out) *! out in
  od *! a *! mix +! lambda *! (mix *! (nlog out +! n1 K)) +! ndiv (lambda *! mix) mu.
(** Lines 174-176 and 185-188: what one element makes of delta_a and of delta_b. *)
Definition hmax_da (lambda mu x out acc : D) : D :=
  acc +! (n1 K -! out) *! out *! x +!
  (nopp K x +! (two +! ndiv (n1 K) mu) *! x *! out -! ndiv (x *! out *! out) mu) *! lambda.
Definition hmax_db (lambda mu x out acc : D) : D :=
  acc +! (n1 K -! out) *! out +! ((two +! ndiv (n1 K) mu) *! out -! ndiv (out *! out) mu) *! lambda.
(** Lines 139-195: the input's gradient and the two weights' gradients; [count] is the number
    of elements as a datum. *)
Definition hmax_bp (lambda mu local_lr count : D) (weights input output output_delta input_delta : tensor D) : res (tensor D * (D * D)) :=
  a <- get weights 0 0 0 0 ;; b <- get weights 1 0 0 0 ;;
  input' <- run_stores input_delta (for_ (elements input) (fun e =>
    [(e, x <- elt input e ;; o <- elt output e ;; od <- elt output_delta e ;; Ok (hmax_back a lambda mu x o od))])) ;;
  da <- foldm (fun acc e => x <- elt input e ;; o <- elt output e ;; Ok (hmax_da lambda mu x o acc)) (seq 0 (elements input))
          (ndiv (nopp K count) a *! lambda) ;;
  db <- foldm (fun acc e => x <- elt input e ;; o <- elt output e ;; Ok (hmax_db lambda mu x o acc)) (seq 0 (elements input))
          (nopp K count *! lambda) ;;
  Ok (input', (local_lr *! da, local_lr *! db)).

(** ** ErrorLayer *)

(** ErrorLayer.cpp:24-60 and 62-88. *)
Definition error_connect (first second third : tensor D) : bool :=
  (samples first =? samples second) && (elements first =? elements second) && (samples first =? samples third).

(** ErrorLayer.cpp:90-133: the new delta of the first input. *)
Definition error_ff (loss_weight : D) (first second third first_delta : tensor D) : res (tensor D) :=
  run_stores first_delta
    (for_ (samples first) (fun sample => for_ (maps first) (fun map => for_ (height first) (fun y => for_ (width first) (fun x =>
      [(offset first_delta x y map sample,
        a <- get first x y map sample ;; b <- get second x y map sample ;; w <- get third x y 0 sample ;;
        Ok ((a -! b) *! w *! loss_weight))]))))).

(** ErrorLayer.cpp:140-168. *)
Definition error_loss (loss_weight : D) (first second third : tensor D) : res D :=
  error <- foldm (fun acc p => let '(x, y, map, sample) := p in
      a <- get first x y map sample ;; b <- get second x y map sample ;; w <- get third x y 0 sample ;;
      Ok (acc +! (a -! b) *! (a -! b) *! w *! loss_weight))
    (for_ (samples first) (fun sample => for_ (maps first) (fun map => for_ (height first) (fun y => for_ (width first) (fun x =>
      [(x, y, map, sample)]))))) (n0 K) ;;
  Ok (ndiv error two).
End ActModel.
