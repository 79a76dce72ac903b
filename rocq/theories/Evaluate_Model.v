(** Model of a test run as a whole: Trainer::Test (src/net/Trainer.cpp:251-312) on a network with a dataset input layer
    and a confusion matrix, as trainNetwork runs it (tools/trainNetwork.cpp:315-328).

    The pieces are those of [Trainer_Model], [DatasetInput_Model] and [StatLayers_Model]; this file connects them as
    trainNetwork does.  The layers between input and output are a parameter: a function of their weights and the
    batch.  Layers run in the order input layer, network, confusion matrix (NetGraph.cpp:292-345). *)
From Verif Require Import Base Float32 Tensor_Model Num Trainer_Model DatasetInput_Model StatLayers_Model.

Section Evaluate.
(** Numbers of the trainer, numbers of the statistics, states of the random generator. *)
Context {D W G : Type} (A : arith D) (K : num W) (wide : f32 -> W).
Variable zero : f32.
Variable gtb : f32 -> f32 -> bool.
Variable shuffle : G -> list nat -> list nat * G.
Variable uniform : G -> f32 * G.
Variable training_sample testing_sample : outputs f32 -> nat -> nat -> res (outputs f32 * bool).
(** The layers between the input layer and the output: the output tensor and the losses of the loss layers. *)
Variable net : list (list (list D)) -> outputs f32 -> res (tensor f32 * list D).

(** The input layer with its outputs and the samples it loaded, and the confusion matrix. *)
Record bench : Type := mkBench { b_input : layer f32 G * outputs f32 * list draw; b_matrix : confusion W }.

(** NetGraph.cpp:292-345: one forward pass.  The confusion matrix reads the network's output, the labels and the
    weights (tools/trainNetwork.cpp:273-290). *)
Definition bench_forward (b : bench) (ps : list (list (list D))) : res (bench * list D) :=
  input <- feed_forward zero gtb shuffle uniform training_sample testing_sample (b_input b) ;;
  let '(_, o, _) := input in
  r <- net ps o ;;
  let '(out, losses) := r in
  matrix <- cm_forward K wide out (o_label o) (o_weight o) (b_matrix b) ;;
  Ok (mkBench input matrix, losses).

(** What the trainer sees: a run that failed stays failed. *)
Definition world_forward (w : res bench) (ps : list (list (list D))) : res bench * list D :=
  match (b <- w ;; bench_forward b ps) with
  | Ok (b, losses) => (Ok b, losses)
  | Fatal => (Fatal, [])
  | UB => (UB, [])
  end.
(** Trainer.cpp:265-266 and 307-308. *)
Definition world_mode (t : bool) (w : res bench) : res bench :=
  b <- w ;; let '(l, o, ds) := b_input b in Ok (mkBench (set_testing_mode l t, o, ds) (b_matrix b)).

Variable scale : nat -> D -> nat.
Variable ltb : W -> W -> bool.
Variable div : W -> W -> W.
Variable of_nat : nat -> W.

(** tools/trainNetwork.cpp:315-328 with Trainer.cpp:251-312: the test, the rates that are reported after it (Trainer.cpp:299-305)
    and the state after StatAggregator::Reset, which resets the matrix (ConfusionMatrixLayer.cpp:36, StatAggregator.cpp:88-101). *)
Definition test_command (cfg : settings D) (dl : data_layer D) (t : trainer D (res bench)) (es : list (event D))
  : res (option (W * W * W) * trainer D (res bench) * list (event D)) :=
  r <- test D A cfg dl (res bench) world_forward world_mode scale (t, es) ;;
  let '(t1, es1) := r in
  b <- world t1 ;;
  rates <- cm_update_all K ltb div of_nat (b_matrix b) ;;
  matrix <- cm_reset K (b_matrix b) ;;
  Ok (rates, with_world D (res bench) t1 (Ok (mkBench (b_input b) matrix)), es1).
End Evaluate.
Arguments bench : clear implicits.
Arguments mkBench {W G}. Arguments b_input {W G}. Arguments b_matrix {W G}.
