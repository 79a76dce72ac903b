(** Model of a test run of a network with one class: Trainer::Test (src/net/Trainer.cpp:251-312) on a network with a dataset input
    layer and a binary statistics layer, as trainNetwork sets it up when the dataset has one class (tools/trainNetwork.cpp:273-290).

    As [Evaluate_Model], with [bs_forward] in place of the confusion matrix.  The counters are floats (BinaryStatLayer.h:73-92).
    The layers between input and output are a parameter. *)
From Verif Require Import Base Float32 Tensor_Model Num Trainer_Model DatasetInput_Model StatLayers_Model.

Section Evaluate.
Context {D G : Type} (A : arith D).
Variable zero : f32.
Variable gtb : f32 -> f32 -> bool.
Variable shuffle : G -> list nat -> list nat * G.
Variable uniform : G -> f32 * G.
Variable training_sample testing_sample : outputs f32 -> nat -> nat -> res (outputs f32 * bool).
Variable net : list (list (list D)) -> outputs f32 -> res (tensor f32 * list D).

(** The input layer with its outputs and the samples it loaded, and the statistics layer. *)
Record detector : Type := mkDetector { d_input : layer f32 G * outputs f32 * list draw; d_stat : binary f32 }.

(** NetGraph.cpp:292-345: one forward pass.  The statistics layer reads the network's output, the labels and the weights
    (tools/trainNetwork.cpp:285-287). *)
Definition detector_forward (b : detector) (ps : list (list (list D))) : res (detector * list D) :=
  input <- feed_forward zero gtb shuffle uniform training_sample testing_sample (d_input b) ;;
  let '(_, o, _) := input in
  r <- net ps o ;;
  let '(out, losses) := r in
  stat <- bs_forward f32_num (fun x => x) out (o_label o) (o_weight o) (d_stat b) ;;
  Ok (mkDetector input stat, losses).

(** What the trainer sees: a run that failed stays failed. *)
Definition detector_world (w : res detector) (ps : list (list (list D))) : res detector * list D :=
  match (b <- w ;; detector_forward b ps) with
  | Ok (b, losses) => (Ok b, losses)
  | Fatal => (Fatal, [])
  | UB => (UB, [])
  end.
(** Trainer.cpp:265-266 and 307-308. *)
Definition detector_mode (t : bool) (w : res detector) : res detector :=
  b <- w ;; let '(l, o, ds) := d_input b in Ok (mkDetector (set_testing_mode l t, o, ds) (d_stat b)).

Variable scale : nat -> D -> nat.

(** tools/trainNetwork.cpp:315-328 with Trainer.cpp:251-312: the test, what is reported after it (Trainer.cpp:299-305) and the state
    after StatAggregator::Reset, which resets the counters (BinaryStatLayer.cpp:53, StatAggregator.cpp:88-101). *)
Definition detector_command (cfg : settings D) (dl : data_layer D) (t : trainer D (res detector)) (es : list (event D))
  : res (binary_stats * trainer D (res detector) * list (event D)) :=
  r <- test D A cfg dl (res detector) detector_world detector_mode scale (t, es) ;;
  let '(t1, es1) := r in
  b <- world t1 ;;
  stats <- bs_update_all (d_stat b) ;;
  stat <- bs_reset f32_num (d_stat b) ;;
  Ok (stats, with_world D (res detector) t1 (Ok (mkDetector (d_input b) stat)), es1).
End Evaluate.
Arguments detector : clear implicits.
Arguments mkDetector {G}. Arguments d_input {G}. Arguments d_stat {G}.
